(** Pictures of several symbols: all are found, each is read. *)
From Coq Require Import Reals Lra SpecFloat.
From Flocq Require Import Core.
From Coq Require Import Permutation.
From Verif Require Import Base Lib VersionDb ModelDecode ModelImage ModelGeometry ModelDetect ModelIdentify SpecQR SpecPayload SpecImage SpecThreshold SpecFinder SpecPicture SpecSheet
  FloodProofs RegionProofs FormatProofs EndToEnd EncodeProofs GridProofs SymbolProofs PayloadProofs CornerProofs SearchProofs HistoryProofs FloatProofs GeometryProofs SpiralProofs FrameProofs SquareProofs TurnProofs PatternProofs GroupProofs
  WholeProofs DrawProofs RenderProofs ImageFacts FinderFacts PictureProofs SheetSearch SheetGroup SpecQR.
From Coq Require Import ZifyBool.
Open Scope Z_scope.
Set Bullet Behavior "Strict Subproofs".

(** * The finder patterns of a symbol *)

Definition mark_at (k : mark) (s t : Z) : pixel := place (mk_r k) (symbol_size (mk_v k) * mk_m k - 1) (mk_ox k) (mk_oy k) s t.
Definition mark_px (k : mark) (c d : Z) : pixel := corner_px (mk_v k) (mk_m k) (mk_ox k) (mk_oy k) (mk_r k) c d.

Lemma finders_px k : let n := symbol_size (mk_v k) in
  corner_finder k = (mk_m k, mark_px k 0 0) /\ row_finder k = (mk_m k, mark_px k (n - 7) 0) /\ column_finder k = (mk_m k, mark_px k 0 (n - 7)).
Proof.
  cbv zeta. unfold corner_finder, row_finder, column_finder, finder_of, mark_px, corner_px, place. cbv zeta.
  destruct (mk_r k) as [|[|[|r']]]; cbn [dir_a dir_b org_x org_y fst snd]; repeat match goal with |- _ /\ _ => split end; (apply (f_equal2 pair); [reflexivity|apply (f_equal2 pair); ring]).
Qed.

Lemma in_finders k f : In f (finders k) <-> exists s, In s (squares3 (mk_v k) (mk_m k) (mk_ox k) (mk_oy k) (mk_r k)) /\ f = (mk_m k, s).
Proof.
  destruct (finders_px k) as (E1 & E2 & E3). unfold finders. rewrite E1, E2, E3. unfold squares3, corners3, mark_px. cbn [map In fst snd]. split.
  - intros [<-|[<-|[<-|[]]]]; eexists; (split; [|reflexivity]); auto.
  - intros (s & [<-|[<-|[<-|[]]]] & ->); auto.
Qed.

Section Mark.
Context (w h : Z) (col : pixel -> Z) (k : mark) (C : clear_mark w h col k).
Notation v := (mk_v k).
Notation n := (symbol_size (mk_v k)).
Notation m := (mk_m k).

Lemma mark_finder_square f : In f (finders k) -> finder_square w h col (fst f) (fst (snd f)) (snd (snd f)) /\ fst f = m.
Proof using C.
  destruct C as [[Hv _] M _ Fp Sh]. intros H. apply in_finders in H as (s & Hs & ->). cbn [fst snd]. split; [|reflexivity].
  apply (in_squares w h col v _ m _ _ _ Sh Hv Fp) in Hs as (c & d & Hc & ->). apply (corner_square w h col v _ m _ _ _ Sh Hv Fp). exact Hc.
Qed.

Lemma mark_finder_inside f q : In f (finders k) -> f_box f q -> mark_square k q.
Proof using C.
  destruct C as [[Hv _] M _ Fp Sh]. intros H B. apply in_finders in H as (s & Hs & ->). unfold f_box in B. cbn [fst snd] in B.
  apply (in_squares w h col v _ m _ _ _ Sh Hv Fp) in Hs as (c & d & Hc & ->).
  rewrite <- (place_parts (mk_r k) (n * m - 1) (mk_ox k) (mk_oy k) q) in B |- *. apply (box_part w h col v _ m _ _ _ Sh Hv Fp) in B.
  apply (place_square w h col v _ m _ _ _ Sh). revert B. generalize (row_part (mk_r k) (n * m - 1) (mk_ox k) (mk_oy k) q) (col_part (mk_r k) (n * m - 1) (mk_ox k) (mk_oy k) q).
  intros s t B. assert (Q : 21 <= n) by (unfold symbol_size; lia). unfold corners3 in Hc. cbn [In] in Hc. revert B Q Hc. generalize (symbol_size v). clear - M. intros z B Q Hc.
  destruct Hc as [E|[E|[E|[]]]]; injection E as <- <-; nia.
Qed.

Lemma mark_finder_apart f g q : In f (finders k) -> In g (finders k) -> f_box f q -> f_box g q -> f = g.
Proof using C.
  destruct C as [[Hv _] M _ Fp Sh]. intros H H' B B'. apply in_finders in H as (s & Hs & ->). apply in_finders in H' as (s' & Hs' & ->).
  f_equal. apply (squares_apart w h col v _ m _ _ _ Sh Hv Fp s s' q); assumption.
Qed.

Lemma mark_nodup : NoDup (finders k).
Proof using C.
  destruct C as [[Hv _] M _ Fp Sh]. pose proof (squares_nodup w h col v _ m _ _ _ Sh Hv Fp) as Nd.
  destruct (finders_px k) as (E1 & E2 & E3). unfold finders. rewrite E1, E2, E3.
  change [(m, mark_px k 0 0); (m, mark_px k (n - 7) 0); (m, mark_px k 0 (n - 7))] with (map (pair m) (squares3 v m (mk_ox k) (mk_oy k) (mk_r k))).
  apply FinFun.Injective_map_NoDup; [|exact Nd]. intros a b E. injection E. auto.
Qed.

Lemma mark_corner_in : mark_square k (snd (corner_finder k)) /\ f_box (corner_finder k) (snd (corner_finder k)).
Proof using C.
  destruct C as [[Hv _] M _ Fp Sh].
  assert (B : f_box (corner_finder k) (snd (corner_finder k))) by (destruct (finders_px k) as (E1 & _ & _); rewrite E1; unfold f_box, box; cbn [fst snd]; lia).
  split; [|exact B]. apply (mark_finder_inside (corner_finder k)); [left; reflexivity|exact B].
Qed.

(** The fourth corner lies in the square, in none of the patterns, and in the picture. *)
Lemma mark_fourth : let D := (n - 7) * m in mark_square k (mark_at k D D) /\ inside w h (mark_at k D D) /\ forall f, In f (finders k) -> ~ f_box f (mark_at k D D).
Proof using C.
  cbv zeta. destruct C as [[Hv _] M _ Fp Sh]. assert (Q : 21 <= n) by (unfold symbol_size; lia).
  assert (R : 0 <= (n - 7) * m < n * m) by (revert Q; generalize (symbol_size v); clear - M; intros; nia).
  split; [apply (place_square w h col v _ m _ _ _ Sh); lia|]. split; [apply (place_inside w h col v _ m _ _ _ Sh); lia|].
  intros f Hf B. apply in_finders in Hf as (s & Hs & ->). unfold f_box in B. cbn [fst snd] in B.
  apply (in_squares w h col v _ m _ _ _ Sh Hv Fp) in Hs as (c & d & Hc & ->). apply (box_part w h col v _ m _ _ _ Sh Hv Fp) in B.
  unfold corners3 in Hc. cbn [In] in Hc. revert B Q Hc. generalize (symbol_size v). clear - M. intros z B Q Hc. destruct Hc as [E|[E|[E|[]]]]; injection E as <- <-; nia.
Qed.
End Mark.

(** * The whole search *)

Definition fourth (k : mark) : pixel := let d := (symbol_size (mk_v k) - 7) * mk_m k in mark_at k d d.

Section Sheet.
Context {Srt : Sorter spec_float}.
Context (I0 : image) (p0 : prepared) (Fr : fresh I0 p0) (ks : list mark).
Context (Cs : fair_sheet (im_w I0) (im_h I0) (pix I0) ks).
Notation mframed k := (framed (mk_v k) (mk_m k) (mk_ox k) (mk_oy k) (mk_r k)).

Lemma one_mark k : In k ks -> clear_mark (im_w I0) (im_h I0) (pix I0) k.
Proof using Cs. apply Cs. Qed.

Lemma marks_apart k k' q : In k ks -> In k' ks -> mark_square k q -> mark_square k' q -> k = k'.
Proof using Cs.
  intros H H' B B'. destruct (ForallOrdPairs_In (cs_apart _ _ _ _ Cs) k k' H H') as [E|[A|A]]; [exact E| |].
  - exfalso. exact (A q B B').
  - exfalso. exact (A q B' B).
Qed.

Lemma all_apart f f' q : In f (all_finders ks) -> In f' (all_finders ks) -> f_box f q -> f_box f' q -> f = f'.
Proof using Cs.
  intros H H' B B'. apply in_flat_map in H as (k & Hk & Hf). apply in_flat_map in H' as (k' & Hk' & Hf').
  assert (k = k') by (apply (marks_apart k k' q Hk Hk'); eapply mark_finder_inside; eauto using one_mark). subst k'.
  eapply mark_finder_apart; eauto using one_mark.
Qed.

Lemma finders_nodup : NoDup (all_finders ks).
Proof using Cs.
  pose proof (cs_apart _ _ _ _ Cs) as A. assert (In_ : forall k, In k ks -> clear_mark (im_w I0) (im_h I0) (pix I0) k) by exact one_mark.
  revert A In_. clear. generalize ks. intros l A. induction A as [|k l A O IH]; intros In_; cbn [all_finders flat_map]; [constructor|].
  apply NoDup_app_intro; [apply (mark_nodup _ _ _ k (In_ k ltac:(left; reflexivity)))|apply IH; intros k' H; apply In_; right; exact H|].
  intros f Hf Hf'. apply in_flat_map in Hf' as (k' & Hk' & Hf').
  pose proof (mark_finder_square _ _ _ k (In_ k ltac:(left; reflexivity)) f Hf) as [[U _ _ _ _ _ _] _].
  assert (B : f_box f (snd f)) by (unfold f_box, box; lia).
  rewrite Forall_forall in A. apply (A k' Hk' (snd f)); eapply mark_finder_inside; try eassumption; apply In_; [left; reflexivity|right; exact Hk'].
Qed.

Lemma all_placed f : In f (all_finders ks) -> 2 <= fst f /\ placed (snd f) (fst f).
Proof using Cs.
  intros H. apply in_flat_map in H as (k & Hk & Hf). pose proof (one_mark k Hk) as C. destruct (mark_finder_square _ _ _ k C f Hf) as [[? ? ? ? ? _ _] E].
  pose proof (ck_unit _ _ _ _ C). pose proof (cs_width _ _ _ _ Cs). pose proof (cs_height _ _ _ _ Cs). unfold placed. rewrite E in *. lia.
Qed.

Lemma sheet_search : exists caps p' fs, capstones_from_image (T := spec_float) p0 = Ok (caps, p') /\ reg_inv I0 p' /\ Permutation (all_finders ks) fs
  /\ Forall2 f_cap fs caps /\ ForallOrdPairs sooner_finder fs /\ (forall k, In k ks -> ~ claimed p' (fourth k))
  /\ forall f, In f (all_finders ks) -> claimed p' (snd f).
Proof using Fr Cs.
  destruct (search_finders I0 p0 (all_finders ks) Fr (cs_width _ _ _ _ Cs) ltac:(pose proof (cs_height _ _ _ _ Cs); lia)) as (caps & p' & Ec & Rc & (fs & Pm & F2 & Od) & Cl & Rg).
  - intros f Hf. apply (all_placed f Hf).
  - exact finders_nodup.
  - intros f Hf. apply in_flat_map in Hf as (k & Hk & Hf). apply (mark_finder_square _ _ _ k (one_mark k Hk) f Hf).
  - exact all_apart.
  - intros y l st r F. destruct (cs_only _ _ _ _ Cs y l st r F) as (k & Hk & If). pose proof (one_mark k Hk) as C. destruct C as [[Hv _] M _ Fp Sh].
    destruct (finder_in_square _ _ _ _ _ _ _ _ _ Sh Hv Fp (r, y) If) as (s & Hs & B). exists (mk_m k, s). split; [|exact B].
    apply in_flat_map. exists k. split; [exact Hk|]. apply in_finders. exists s. auto.
  - exists caps, p', fs. split; [exact Ec|]. split; [apply (reached_inv I0 p'); exact Rc|]. split; [exact Pm|]. split; [exact F2|]. split; [exact Od|]. split.
    2: { intros f Hf. apply (Rg f _ Hf). destruct (all_placed f Hf) as [M2 _]. unfold SquareProofs.ring, box. lia. }
    intros k Hk Ck. destruct (mark_fourth _ _ _ k (one_mark k Hk)) as (S1 & S2 & S3). destruct (Cl (fourth k) S2 Ck) as (f & Hf & [B _]).
    apply in_flat_map in Hf as (k' & Hk' & Hf).
    assert (k = k') by (apply (marks_apart k k' (fourth k) Hk Hk' S1); apply (mark_finder_inside _ _ _ k' (one_mark k' Hk') f _ Hf B)). subst k'.
    exact (S3 f Hf B).
Qed.

Lemma sheet_group p k g : In k ks -> reg_inv I0 p -> ~ claimed p (fourth k) -> group_for k g ->
  exists p' c, from_group (N := F64) p g = Ok (Some (MkLoc (symbol_size (mk_v k)) c), p') /\ reg_inv I0 p' /\ mframed k c
    /\ forall a, in_image I0 a -> claimed p' a -> claimed p a \/ mark_square k a.
Proof using Cs.
  intros Hk RI Nc (cA & cB & cC & QA & QB & QC & Hg). destruct (finders_px k) as (EA & EB & EC). unfold f_cap in *. rewrite EA in QA. rewrite EB in QB. rewrite EC in QC.
  cbn [fst snd] in QA, QB, QC. destruct (one_mark k Hk) as [[Hv V21] M Sz Fp Sh].
  apply (symbol_group I0 (cs_width _ _ _ _ Cs) (cs_height _ _ _ _ Cs) (mk_v k) (mk_sym k) (mk_m k) (mk_ox k) (mk_oy k) (mk_r k) Sh Hv Fp M V21 Sz p g cA cB cC RI Nc QA QB QC Hg).
Qed.

Definition add_located (g : ModelIdentify.group spec_float) (s : prepared * list (location spec_float)) : out (prepared * list (location spec_float)) :=
  let '(p, locs) := s in
  let* t := from_group p g in
  match t with
  | (None, p) => Ok (p, locs)
  | (Some l, p) => Ok (p, locs ++ [l])
  end.

Definition located_at (k : mark) (l : location spec_float) : Prop := exists c, l = MkLoc (symbol_size (mk_v k)) c /\ mframed k c.

Lemma locate_all todo groups : Forall2 group_for todo groups -> NoDup todo -> (forall k, In k todo -> In k ks) ->
  forall p locs, reg_inv I0 p -> (forall k, In k todo -> ~ claimed p (fourth k)) ->
  exists p' ls, for_each groups add_located (p, locs) = Ok (p', locs ++ ls) /\ reg_inv I0 p' /\ Forall2 located_at todo ls.
Proof using Cs.
  induction 1 as [|k g todo groups Hg F IH]; intros Nd In_ p locs RI Nc; cbn [for_each].
  - exists p, []. rewrite app_nil_r. split; [reflexivity|]. split; [exact RI|constructor].
  - inversion Nd as [|? ? N1 N2]; subst.
    destruct (sheet_group p k g (In_ k ltac:(left; reflexivity)) RI (Nc k ltac:(left; reflexivity)) Hg) as (p1 & c & Ef & RI1 & Af & Cl).
    unfold add_located at 1. unfold out in *. rewrite Ef. cbn [bind].
    destruct (IH N2 ltac:(intros k' H; apply In_; right; exact H) p1 (locs ++ [MkLoc (symbol_size (mk_v k)) c]) RI1) as (p2 & ls & El & RI2 & Fl).
    { intros k' Hk' Ck. pose proof (In_ k' ltac:(right; exact Hk')) as Ik'. destruct (mark_fourth _ _ _ k' (one_mark k' Ik')) as (S1 & S2 & _).
      destruct (Cl (fourth k') S2 Ck) as [Ck'|Sq]; [apply (Nc k' ltac:(right; exact Hk') Ck')|].
      assert (k = k') by (apply (marks_apart k k' (fourth k') (In_ k ltac:(left; reflexivity)) Ik' Sq S1)). subst k'. contradiction. }
    exists p2, (MkLoc (symbol_size (mk_v k)) c :: ls). split; [rewrite El, <- app_assoc; reflexivity|]. split; [exact RI2|]. constructor; [exists c; auto|exact Fl].
Qed.

Definition found_at_mark (k : mark) (l : located spec_float) : Prop :=
  exists c, l = MkLocated (MkLoc (symbol_size (mk_v k)) c) (frame_bounds (mk_v k) (mk_m k) (mk_ox k) (mk_oy k) (mk_r k)) /\ mframed k c.

Lemma bounds_all p : reg_inv I0 p -> forall todo ls, Forall2 located_at todo ls -> (forall k, In k todo -> In k ks) -> forall acc,
  exists gs, for_each ls (fun l acc => let* b := grid_bounds (N := F64) l in Ok (acc ++ [MkLocated l b])) acc = Ok (acc ++ gs) /\ Forall2 found_at_mark todo gs.
Proof using Cs.
  intros RI. induction 1 as [|k l todo ls (c & -> & Af) F IH]; intros In_ acc; cbn [for_each].
  - exists []. rewrite app_nil_r. split; [reflexivity|constructor].
  - destruct (one_mark k (In_ k ltac:(left; reflexivity))) as [[Hv V21] M Sz Fp Sh].
    rewrite (framed_bounds I0 (cs_width _ _ _ _ Cs) (cs_height _ _ _ _ Cs) (mk_v k) (mk_sym k) (mk_m k) (mk_ox k) (mk_oy k) (mk_r k) Sh Hv Fp M V21 Sz p c RI Af). cbn [bind].
    destruct (IH ltac:(intros k' H; apply In_; right; exact H) (acc ++ [MkLocated (MkLoc (symbol_size (mk_v k)) c) (frame_bounds (mk_v k) (mk_m k) (mk_ox k) (mk_oy k) (mk_r k))])) as (gs & Eg & Fg).
    rewrite Eg. eexists. rewrite <- app_assoc. split; [reflexivity|]. constructor; [exists c; auto|exact Fg].
Qed.

Theorem detect_sheet : orderly ks -> exists found ls p', detect_grids (N := F64) p0 = Ok (ls, p') /\ reg_inv I0 p' /\ Permutation ks found
  /\ ForallOrdPairs (fun k k' => sooner_finder (corner_finder k) (corner_finder k')) found /\ Forall2 found_at_mark found ls.
Proof using Fr Cs.
  intros Orderly. destruct sheet_search as (caps & p1 & fs & Es & RI & Pm & F2 & Od & Nc & _). unfold detect_grids. rewrite Es. cbn [bind].
  assert (InF : forall f, In f fs -> In f (all_finders ks)) by (intros f; apply Permutation_in; apply Permutation_sym; exact Pm).
  destruct (groups_sheet ks fs caps F2 ltac:(auto using all_placed) ltac:(eauto using all_apart) Pm Od
    ltac:(intros k Hk; apply (one_mark k Hk)) p1 Orderly) as (found & groups & Eg & Pk & Fg & Ok_).
  { intros k g Hk Hg. destruct (clone_inv I0 p1 RI) as [C1 C2].
    destruct (sheet_group (clone p1) k g Hk C1 ltac:(unfold claimed in *; rewrite C2; apply (Nc k Hk)) Hg) as (p' & c & E & _). eauto. }
  rewrite Eg. cbn [bind].
  assert (Nd : NoDup found).
  { eapply Permutation_NoDup; [exact Pk|]. apply (flat_map_nodup finders); [intros k; discriminate|exact finders_nodup]. }
  assert (InK : forall k, In k found -> In k ks) by (intros k; apply Permutation_in; apply Permutation_sym; exact Pk).
  destruct (locate_all found groups Fg Nd InK p1 [] RI) as (p2 & ls & El & RI2 & Fl).
  { intros k Hk. apply Nc. apply InK. exact Hk. }
  unfold add_located in El. unfold out in *. rewrite El. cbn [bind app].
  destruct (bounds_all p2 RI2 found ls Fl InK []) as (gs & Eb & Fb). unfold out in *. rewrite Eb. cbn [bind app].
  exists found, gs, p2. auto 6.
Qed.
End Sheet.

(** * From the public operations to the messages *)

(** What [detect_grids] returns: one grid for each symbol, in the order of the symbols' corners, each reading its
    symbol. *)
Definition finds_sheet {Srt : Sorter spec_float} (p : prepared) (ks : list mark) : Prop :=
  exists found ls p', detect_grids (T := spec_float) p = Ok (ls, p') /\ Permutation ks found
    /\ ForallOrdPairs (fun k k' => sooner_finder (corner_finder k) (corner_finder k')) found
    /\ Forall2 (fun k l => lg_bounds l = bounds_at (symbol_size (mk_v k)) (mk_m k) (mk_ox k) (mk_oy k) (mk_r k)
         /\ g_size (ref_grid p' (lg_loc l)) = symbol_size (mk_v k) /\ readable (ref_grid p' (lg_loc l)) (mk_sym k)) found ls.

Lemma sheet_fresh {Srt : Sorter spec_float} p ks : fresh (p_buf p) p -> clear_sheet (p_w p) (p_h p) (pix (p_buf p)) ks -> finds_sheet p ks.
Proof.
  intros F C. destruct (detect_sheet (p_buf p) p F ks (proj1 C) (proj2 C)) as (found & ls & p' & E & RI & Pm & Od & Fl). exists found, ls, p'.
  split; [exact E|]. split; [exact Pm|]. split; [exact Od|].
  assert (InK : forall k, In k found -> In k ks) by (intros k; apply Permutation_in; apply Permutation_sym; exact Pm).
  clear E Pm Od. induction Fl as [|k l found ls (c & -> & Af) Fl IH]; constructor.
  - cbn [lg_bounds lg_loc]. split; [apply bounds_frame|]. split; [reflexivity|]. intros y x Hy Hx.
    destruct (cs_marks _ _ _ _ (proj1 C) k (InK k ltac:(left; reflexivity))) as [[Hv V21] M Sz Fp Sh].
    apply (framed_bits (p_buf p) (cs_width _ _ _ _ (proj1 C)) (cs_height _ _ _ _ (proj1 C)) (mk_v k) (mk_sym k) (mk_m k) (mk_ox k) (mk_oy k) (mk_r k) Sh Hv Fp M V21 Sz p' c y x RI Af Hx Hy).
  - apply IH. intros k' H. apply InK. right. exact H.
Qed.

Theorem sheet_bitmap {Srt : Sorter spec_float} w h fill ks : clear_sheet w h (ink fill) ks ->
  exists p, prepare_from_bitmap w h fill = Ok p /\ finds_sheet p ks.
Proof.
  intros C. pose proof (cs_width _ _ _ _ (proj1 C)) as Hw. pose proof (cs_height _ _ _ _ (proj1 C)) as Hh.
  destruct (bitmap_ok w h fill ltac:(lia) ltac:(lia)) as (p & E & S1 & S2 & F & P); [unfold usize_max; nia|].
  exists p. split; [exact E|]. apply sheet_fresh; [exact F|]. rewrite S1, S2.
  eapply clear_sheet_same; [|exact C]. exact (prepared_pixels w h p fill F S1 S2 P).
Qed.

Theorem sheet_greyscale {Srt : Sorter spec_float} w h fill ks : (forall x y, inside w h (x, y) -> 0 <= fill x y <= 255) -> clear_sheet w h (shade w fill) ks ->
  exists p, prepare_from_greyscale w h fill = Ok p /\ finds_sheet p ks.
Proof.
  intros G C. pose proof (cs_width _ _ _ _ (proj1 C)) as Hw. pose proof (cs_height _ _ _ _ (proj1 C)) as Hh.
  destruct (greyscale_exact w h fill ltac:(lia) ltac:(lia)) as (p & E & S1 & S2 & F & P); [unfold usize_max; nia|assumption|].
  exists p. split; [exact E|]. apply sheet_fresh; [exact F|]. rewrite S1, S2.
  eapply clear_sheet_same; [|exact C]. intros [x y] Hq.
  apply (prepared_pixels w h p (fun x y => is_dark w (fun z => fill (fst z) (snd z)) (x, y)) F S1 S2 P (x, y) Hq).
Qed.

(** Grid [g] decodes to the message of [t], for every writer, into a vector, and to a string if the bytes are valid UTF-8. *)
Definition decodes_print (g : BitGrid) (t : print) : Prop :=
  let bytes := message_bytes (pr_text t) in
  let meta := mkMeta (mk_v (pr_mark t)) (level_bits (pr_level t)) (pr_mask t) in
  writes_message g bytes meta
  /\ grid_decode_to vec_writer g [] = (bytes, Ok meta)
  /\ (utf8_text bytes -> grid_decode g = Ok (meta, bytes))
  /\ (~ utf8_text bytes -> grid_decode g = Err EncodingError).

(** Detecting and decoding: one grid for each message, in the order of the symbols' corners, each decoding to its
    message. *)
Definition scans_sheet {Srt : Sorter spec_float} (p : prepared) (ts : list print) : Prop :=
  exists found ls p', detect_grids (T := spec_float) p = Ok (ls, p') /\ Permutation ts found
    /\ ForallOrdPairs (fun t t' => sooner_finder (corner_finder (pr_mark t)) (corner_finder (pr_mark t'))) found
    /\ Forall2 (fun t l => let k := pr_mark t in lg_bounds l = bounds_at (symbol_size (mk_v k)) (mk_m k) (mk_ox k) (mk_oy k) (mk_r k)
         /\ decodes_print (ref_grid p' (lg_loc l)) t) found ls.

Lemma ordpairs_map A B (f : A -> B) (R : B -> B -> Prop) l : ForallOrdPairs R (map f l) -> ForallOrdPairs (fun a b => R (f a) (f b)) l.
Proof.
  induction l as [|a l IH]; intros H; [constructor|]. cbn [map] in H. inversion H as [|? ? H1 H2]; subst. constructor; [|apply IH; exact H2].
  rewrite Forall_map in H1. exact H1.
Qed.

Lemma scans_sheet_found {Srt : Sorter spec_float} p ts : finds_sheet p (map pr_mark ts) -> (forall t, In t ts -> 1 <= mk_v (pr_mark t) <= 40 /\ print_ok t) -> scans_sheet p ts.
Proof.
  intros (found & ls & p' & E & Pm & Od & Fl) Ok_. apply Permutation_sym, Permutation_map_inv in Pm as (found' & -> & Pm).
  exists found', ls, p'. split; [exact E|]. split; [exact Pm|]. split; [exact (ordpairs_map _ _ pr_mark _ _ Od)|].
  assert (InT : forall t, In t found' -> In t ts) by (intros k; apply Permutation_in; apply Permutation_sym; exact Pm).
  clear E Pm Od. remember (map pr_mark found') as ms eqn:Em. revert found' Em InT. induction Fl as [|k l ms ls (B & S & R) Fl IH]; intros [|t found'] Em InT; try discriminate; [constructor|].
  cbn [map] in Em. injection Em as -> ->. constructor.
  - cbv zeta. split; [exact B|]. destruct (Ok_ t (InT t ltac:(left; reflexivity))) as (Hv & Hm & Hok & Hf & Hs).
    pose proof (symbol_writes _ _ _ _ _ Hv Hm Hok Hf Hs _ S R) as H. unfold decodes_print. cbv zeta. split; [exact H|].
    destruct (writes_message_vec _ _ _ H) as [H1 H2]. split; [exact H1|]. rewrite H2. split; intros Hu.
    + apply utf8_valid_iff in Hu. rewrite Hu. reflexivity.
    + rewrite <- utf8_valid_iff in Hu. destruct (utf8_valid _); [congruence|reflexivity].
  - apply IH; [reflexivity|]. intros t' H. apply InT. right. exact H.
Qed.

Lemma prints_version w h col ts : clear_sheet w h col (map pr_mark ts) -> (forall t, In t ts -> print_ok t) -> forall t, In t ts -> 1 <= mk_v (pr_mark t) <= 40 /\ print_ok t.
Proof. intros C H t Ht. split; [|apply H; exact Ht]. apply (cs_marks _ _ _ _ (proj1 C)). apply in_map. exact Ht. Qed.

Theorem scan_sheet_bitmap {Srt : Sorter spec_float} w h fill ts : clear_sheet w h (ink fill) (map pr_mark ts) -> (forall t, In t ts -> print_ok t) ->
  exists p, prepare_from_bitmap w h fill = Ok p /\ scans_sheet p ts.
Proof.
  intros C H. destruct (sheet_bitmap w h fill _ C) as (p & E & Fs). exists p. split; [exact E|]. apply scans_sheet_found; [exact Fs|]. exact (prints_version _ _ _ _ C H).
Qed.

Theorem scan_sheet_greyscale {Srt : Sorter spec_float} w h fill ts : (forall x y, inside w h (x, y) -> 0 <= fill x y <= 255) -> clear_sheet w h (shade w fill) (map pr_mark ts) -> (forall t, In t ts -> print_ok t) ->
  exists p, prepare_from_greyscale w h fill = Ok p /\ scans_sheet p ts.
Proof.
  intros G C H. destruct (sheet_greyscale w h fill _ G C) as (p & E & Fs). exists p. split; [exact E|]. apply scans_sheet_found; [exact Fs|]. exact (prints_version _ _ _ _ C H).
Qed.

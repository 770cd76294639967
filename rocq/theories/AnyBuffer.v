(** Scanning any lawful buffer, and some lawful buffers. *)
From Verif Require Import Base Lib VersionDb ModelDecode ModelImage ModelGeometry ModelDetect ModelIdentify ModelOutput ModelBuffer SpecImage SpecBuffer FloodProofs PrepareProofs BufferProofs.
From Coq Require Import ZifyBool.
Open Scope Z_scope.
Set Bullet Behavior "Strict Subproofs".

(** * Grids that answer alike *)

Section Same.
Context (g g' : BitGrid) (Z0 : g_size g = g_size g') (Bt : forall y x, g_bit g y x = g_bit g' y x).

Lemma cell_alike meta rm y x ds : read_cell g meta rm y x ds = read_cell g' meta rm y x ds.
Proof using Z0 Bt. unfold read_cell, read_bit. rewrite Bt. reflexivity. Qed.

Lemma loop_alike meta rm fuel : forall y x neg ds, read_data_loop fuel g meta rm y x neg ds = read_data_loop fuel g' meta rm y x neg ds.
Proof using Z0 Bt.
  induction fuel as [|fuel IH]; intros y x neg ds; cbn [read_data_loop]; [reflexivity|]. destruct (0 <? x); [|reflexivity].
  rewrite cell_alike. apply bind_ext. intros ds1 _. rewrite cell_alike. apply bind_ext. intros ds2 _. rewrite <- Z0.
  destruct (y =? 0), neg, (y =? g_size g - 1); cbn [andb negb]; apply IH.
Qed.

Lemma format_alike : read_format g = read_format g'.
Proof using Z0 Bt.
  unfold read_format.
  assert (E1 : read_format_first g = read_format_first g').
  { unfold read_format_first. f_equal. apply for_each_ext. intros i f Hi. apply bind_ext. intros y _. apply bind_ext. intros x _. rewrite Bt. reflexivity. }
  assert (E2 : read_format_second g = read_format_second g').
  { unfold read_format_second. rewrite <- Z0.
    rewrite (for_each_ext (zrange 0 7) _ (fun i format => let* s1 := usub (g_size g) 1 in let* y := usub s1 i in let* b := g_bit g' y 8 in Ok (push_format_bit format b))).
    - apply bind_ext. intros f _. f_equal. apply for_each_ext. intros i f' Hi. apply bind_ext. intros y _. rewrite Bt. reflexivity.
    - intros i f Hi. apply bind_ext. intros s1 _. apply bind_ext. intros y _. rewrite Bt. reflexivity. }
  rewrite E1, E2, Z0. reflexivity.
Qed.

Lemma raw_alike rm : get_raw g rm = get_raw g' rm.
Proof using Z0 Bt.
  unfold get_raw. rewrite format_alike. apply bind_ext. intros meta _. unfold read_data. rewrite <- Z0. destruct (usub (g_size g) 1); cbn [bind]; try reflexivity. rewrite loop_alike. reflexivity.
Qed.

Lemma inner_alike : decode_inner g = decode_inner g'.
Proof using Z0 Bt. unfold decode_inner. rewrite raw_alike. reflexivity. Qed.
End Same.

Lemma bits_alike g g' : g_size g = g_size g' -> (forall y x, g_bit g y x = g_bit g' y x) -> decode_alike g g'.
Proof.
  intros Z0 Bt. assert (D : forall W (wr : W -> list Z -> W * bool) w, grid_decode_to wr g w = grid_decode_to wr g' w).
  { intros W wr w. unfold grid_decode_to, decode. rewrite (inner_alike g g' Z0 Bt), (inner_alike (MirroredGrid g) (MirroredGrid g') Z0) by (intros y x; apply Bt). reflexivity. }
  split; [exact Z0|]. split; [exact D|]. split; [unfold grid_decode; rewrite D; reflexivity|apply raw_alike; assumption].
Qed.

(** * Any lawful buffer *)

Section Any.
Context {B : Type} {IB : ImageBuffer B} (valid : B -> Prop) (Lw : lawful valid) {T : Type} {N : Num T} {Srt : Sorter T}.
Context (w h : Z) (Hw : 1 <= w <= 2 ^ 31) (Hh : 1 <= h <= 2 ^ 31).

Lemma same_picture p q : same valid w h p q -> b_state_picture p = state_picture q.
Proof using Hw Hh.
  intros Sm. unfold b_state_picture, state_picture. rewrite (s_w valid w h p q Sm), (s_h valid w h p q Sm), (q_w valid w h p q Sm), (q_h valid w h p q Sm).
  apply for_same. intros y c Hy. apply for_same. intros x c1 Hx. apply in_zrange in Hy, Hx. destruct Sm as (H & _). rewrite (holds_get valid w h _ _ x y H) by (split; lia). reflexivity.
Qed.

Lemma same_ends t t' : sim (same2' valid w h) t t' -> ends_alike (T := T) t t'.
Proof using Hw Hh.
  destruct t as [[ls p]|[]| |], t' as [[ls' q]|[]| |]; cbn; try tauto. intros [E Sm]. cbn [fst snd] in E, Sm. split; [exact E|]. split; [|apply same_picture; exact Sm].
  intros l. destruct (s_bits valid w h ltac:(lia) ltac:(lia) p q l Sm) as [Z0 Bt]. apply bits_alike; assumption.
Qed.

Lemma same_again n p q : same valid w h p q -> ends_alike (T := T) (b_detect_again n p) (detect_again n q).
Proof using Lw Hw Hh.
  intros Sm. apply same_ends. revert p q Sm. induction n as [|n IH]; intros p q Sm; cbn [b_detect_again detect_again].
  - apply s_detect; auto; lia.
  - apply sim_bind with (R := same2' valid w h); [apply s_detect; auto; lia|]. intros [ls p1] [ls' q1] [_ S1]. apply IH. exact S1.
Qed.

Lemma shows_holds b f : valid b -> has_pixels b w h f -> holds valid w h b (image_of w h f).
Proof using Hw Hh.
  intros V (S1 & S2 & G). pose proof (image_of_wf w h f ltac:(lia) ltac:(lia)) as Wf. split; [exact V|]. split; [exact Wf|]. split; [split; reflexivity|]. split; [split; assumption|].
  intros x y [Hx Hy]. assert (I : in_image (image_of w h f) (x, y)) by (split; assumption). rewrite G by assumption. unfold out. rewrite (get_pixel_ok _ _ _ Wf I), pix_image_of by (split; assumption). reflexivity.
Qed.

Lemma room_ok : usz (w * h) = Ok (w * h).
Proof using Hw Hh. unfold usz, usize_max. replace (w * h <=? _) with true; [reflexivity|]. symmetry. apply Z.leb_le. nia. Qed.

Theorem any_greyscale n b fill : valid b -> has_pixels b w h fill ->
  ends_alike (T := T) (let* p := b_prepare b in b_detect_again n p) (let* p := prepare_from_greyscale w h fill in detect_again n p).
Proof using Lw Hw Hh.
  intros V S. unfold prepare_from_greyscale. rewrite room_ok. cbn [bind]. pose proof (s_prepare valid Lw w h b _ (shows_holds b fill V S)) as P. change (MkImage w h (collect w h fill)) with (image_of w h fill).
  destruct (b_prepare b) as [p|[]| |], (prepare _) as [q|[]| |]; cbn in P |- *; try tauto. apply same_again. exact P.
Qed.

Theorem any_bitmap n b (fill : Z -> Z -> bool) : valid b -> has_pixels b w h (fun x y => if fill x y then 1 else 0) ->
  ends_alike (T := T) (let* p := b_without_preparation b in b_detect_again n p) (let* p := prepare_from_bitmap w h fill in detect_again n p).
Proof using Lw Hw Hh.
  intros V S. unfold prepare_from_bitmap. rewrite room_ok. cbn [bind]. pose proof (s_without valid w h b _ (shows_holds b _ V S)) as P. change (MkImage w h (collect w h (fun x y => if fill x y then 1 else 0))) with (image_of w h (fun x y => if fill x y then 1 else 0)).
  destruct (b_without_preparation b) as [p|[]| |], (without_preparation _) as [q|[]| |]; cbn in P |- *; try tauto. apply same_again. exact P.
Qed.

(** [without_preparation] refuses every other picture. *)
Theorem any_refused b fill : valid b -> has_pixels b w h fill -> (exists x y, 0 <= x < w /\ 0 <= y < h /\ 2 <= fill x y) -> b_without_preparation b = Panic.
Proof using Lw Hw Hh.
  intros V (S1 & S2 & G) (x & y & Hx & Hy & F). unfold b_without_preparation. rewrite S1, S2.
  assert (P : forall l (f : Z -> unit -> out unit) i, (forall j, In j l -> f j tt = Ok tt \/ f j tt = Panic) -> In i l -> f i tt = Panic -> for_each l f tt = Panic).
  { induction l as [|j l IH]; intros f i A I E; [destruct I|]. cbn [for_each]. destruct (A j (or_introl eq_refl)) as [Ej|Ej]; rewrite Ej; cbn [bind]; [|reflexivity].
    destruct I as [->|I]; [rewrite Ej in E; discriminate|]. apply (IH f i); auto. intros k Hk. apply A. right. exact Hk. }
  assert (Q : forall l (f : Z -> unit -> out unit), (forall j, In j l -> f j tt = Ok tt \/ f j tt = Panic) -> for_each l f tt = Ok tt \/ for_each l f tt = Panic).
  { induction l as [|j l IH]; intros f A; [left; reflexivity|]. cbn [for_each]. destruct (A j (or_introl eq_refl)) as [Ej|Ej]; rewrite Ej; cbn [bind]; [|right; reflexivity]. apply IH. intros k Hk. apply A. right. exact Hk. }
  assert (C : forall x y, 0 <= x < w -> 0 <= y < h -> (let* p := ib_get b x y in assert_ (p <? 2)) = Ok tt \/ (let* p := ib_get b x y in assert_ (p <? 2)) = (Panic : out unit)).
  { intros x' y' Hx' Hy'. rewrite G by assumption. cbn [bind]. unfold assert_. destruct (_ <? _); auto. }
  unfold out in *. rewrite (P _ _ y); [reflexivity| | |].
  - intros j Hj. apply in_zrange in Hj. apply Q. intros i Hi. apply in_zrange in Hi. apply C; lia.
  - apply in_zrange. lia.
  - apply (P _ _ x).
    + intros i Hi. apply in_zrange in Hi. apply C; lia.
    + apply in_zrange. lia.
    + rewrite G by assumption. cbn [bind]. unfold assert_. replace (fill x y <? 2) with false by lia. reflexivity.
Qed.
End Any.

(** * Lawful buffers *)

Definition bytes_image (im : image) : Prop := wf_image im /\ forall q, in_image im q -> 0 <= pix im q <= 255.

Theorem basic_lawful : lawful bytes_image.
Proof.
  split.
  - intros b [(H1 & H2 & _) _]. cbn. lia.
  - intros b x y [Wf G] Hx Hy. cbn in *. assert (I : in_image b (x, y)) by (split; assumption). exists (pix b (x, y)). split; [apply (get_pixel_ok _ _ _ Wf I)|apply G; exact I].
  - intros b x y c [Wf G] Hx Hy Hc. cbn in *. assert (I : in_image b (x, y)) by (split; assumption). exists (put b (x, y) c). destruct (put_size b (x, y) c) as [Z1 Z2]. pose proof (put_wf b (x, y) c Wf) as Wp.
    split; [apply (set_pixel_ok _ _ _ _ Wf I)|]. split; [|split; [exact Z1|split; [exact Z2|]]].
    + split; [exact Wp|]. intros [x' y'] I'. assert (I2 : in_image b (x', y')) by exact I'. destruct (pix_put b (x, y) c (x', y') Wf I I2) as [P1 P2].
      assert (D : (x', y') = (x, y) \/ (x', y') <> (x, y)) by (destruct (Z.eq_dec x' x), (Z.eq_dec y' y); [left|right|right|right]; congruence). destruct D as [D|D]; [rewrite (P1 D); exact Hc|rewrite (P2 D); apply G; exact I2].
    + assert (I2 : in_image (put b (x, y) c) (x, y)) by exact I. destruct (pix_put b (x, y) c (x, y) Wf I I) as [P1 _]. split; [unfold out; rewrite (get_pixel_ok _ _ _ Wp I2), (P1 eq_refl); reflexivity|].
      intros x' y' Hx' Hy' D. assert (I' : in_image b (x', y')) by (split; assumption). assert (I3 : in_image (put b (x, y) c) (x', y')) by exact I'. destruct (pix_put b (x, y) c (x', y') Wf I I') as [_ P2].
      unfold out. rewrite (get_pixel_ok _ _ _ Wp I3), (get_pixel_ok _ _ _ Wf I'), (P2 D). reflexivity.
Qed.

Theorem gray_lawful G (GI : GrayImage G) (valid : G -> Prop) : lawful_gray valid -> lawful (IB := OfGray GI) valid.
Proof.
  intros [L1 L2 L3]. assert (U : forall n z, 0 <= z < n -> n < 2 ^ 32 -> as_u32 z = z) by (intros n z H1 H2; unfold as_u32; apply Z.mod_small; lia). split.
  - intros g V. destruct (L1 g V). cbn. lia.
  - intros g x y V Hx Hy. cbn in *. destruct (L1 g V). rewrite (U _ x Hx), (U _ y Hy) by lia. apply L2; assumption.
  - intros g x y c V Hx Hy Hc. cbn in *. destruct (L1 g V). rewrite (U _ x Hx), (U _ y Hy) by lia. destruct (L3 g x y c V Hx Hy Hc) as (g' & E & V' & Z1 & Z2 & G1 & G2). exists g'. repeat (split; [assumption|]).
    intros x' y' Hx' Hy' D. rewrite (U _ x' Hx'), (U _ y' Hy') by lia. apply G2; assumption.
Qed.

Theorem window_lawful B (IB : ImageBuffer B) (valid : B -> Prop) : lawful valid -> lawful (window_fits valid).
Proof.
  intros [L1 L2 L3]. split.
  - intros b (V & H). cbn. lia.
  - intros b x y (V & H) Hx Hy. cbn in *. apply L2; [exact V|lia|lia].
  - intros b x y c (V & H) Hx Hy Hc. cbn in *. destruct (L3 (wi_in b) (wi_x b + x) (wi_y b + y) c V) as (i & E & V' & Z1 & Z2 & G1 & G2); try lia. rewrite E. cbn [bind]. eexists. split; [reflexivity|].
    split; [unfold window_fits; cbn; rewrite Z1, Z2; tauto|]. cbn. split; [reflexivity|]. split; [reflexivity|]. split; [exact G1|]. intros x' y' Hx' Hy' D. apply G2; try lia. intros Q. apply D. injection Q as Q1 Q2. f_equal; lia.
Qed.

Theorem flipped_lawful B (IB : ImageBuffer B) (valid : B -> Prop) : lawful valid -> lawful (fun b : flipped B => valid (fl_in b)).
Proof.
  intros [L1 L2 L3]. split.
  - intros b V. cbn. destruct (L1 _ V). lia.
  - intros b x y V Hx Hy. cbn in *. apply L2; assumption.
  - intros b x y c V Hx Hy Hc. cbn in *. destruct (L3 (fl_in b) y x c V Hy Hx Hc) as (i & E & V' & Z1 & Z2 & G1 & G2). rewrite E. cbn [bind]. eexists. split; [reflexivity|]. cbn. repeat (split; [assumption|]).
    intros x' y' Hx' Hy' D. apply G2; try assumption. intros Q. apply D. congruence.
Qed.

Lemma find_bytes l x y d : Forall (fun e => 0 <= snd e <= 255) l -> 0 <= d <= 255 -> 0 <= j_find l x y d <= 255.
Proof. intros F Hd. induction F as [|[[x' y'] c] l Hc F IH]; cbn [j_find]; [exact Hd|]. destruct (_ && _); [exact Hc|exact IH]. Qed.

Theorem journal_lawful : lawful journal_bytes.
Proof.
  split.
  - intros b (H1 & H2 & _). cbn. lia.
  - intros b x y (_ & _ & F & L) _ _. cbn. eexists. split; [reflexivity|]. apply find_bytes; [exact L|apply F].
  - intros b x y c (H1 & H2 & F & L) _ _ Hc. cbn. eexists. split; [reflexivity|]. split; [unfold journal_bytes; cbn; repeat (split; [assumption|]); constructor; assumption|]. cbn [j_w j_h j_log j_base j_find]. split; [reflexivity|]. split; [reflexivity|].
    rewrite !Z.eqb_refl. split; [reflexivity|]. intros x' y' _ _ D. destruct ((x' =? x) && (y' =? y)) eqn:E; [|reflexivity]. exfalso. apply D. f_equal; lia.
Qed.

(** * What follows *)
From Coq Require Import SpecFloat.
From Verif Require Import SpecPayload SpecThreshold SpecFinder SpecPicture FormatProofs EndToEnd EncodeProofs GridProofs Refuted PictureProofs SpecQR.

Theorem any_message {B : Type} {IB : ImageBuffer B} (valid : B -> Prop) {Srt : Sorter spec_float} w h b fill v e mask msg sym m ox oy r :
  lawful valid -> 1 <= w <= 2 ^ 31 -> 1 <= h <= 2 ^ 31 -> valid b -> has_pixels b w h fill ->
  clear_picture w h (shade w fill) v sym m ox oy r -> 0 <= mask < 8 -> message_ok v msg -> fits v e msg -> is_symbol v e mask msg sym ->
  exists p l p', b_prepare b = Ok p /\ b_detect_grids (T := spec_float) p = Ok ([l], p')
    /\ grid_decode_to vec_writer (b_ref_grid p' (lg_loc l)) [] = (message_bytes msg, Ok (mkMeta v (level_bits e) mask))
    /\ (utf8_text (message_bytes msg) -> grid_decode (b_ref_grid p' (lg_loc l)) = Ok (mkMeta v (level_bits e) mask, message_bytes msg)).
Proof.
  intros Lw Hw Hh V Sh C Hm Ok1 F Is. pose proof (any_greyscale valid Lw w h Hw Hh 0 b fill V Sh) as A.
  assert (By : forall x y, inside w h (x, y) -> 0 <= fill x y <= 255).
  { intros x y [Hx Hy]. cbn in Hx, Hy. destruct Sh as (S1 & S2 & G). destruct (lw_get _ Lw b x y V) as (c & E & Hc); try lia. rewrite G in E by assumption. injection E as ->. exact Hc. }
  destruct (scan_greyscale w h fill v e mask msg sym m ox oy r By C Hm Ok1 F Is) as (q & E & l & q' & Ed & _ & D1 & D2 & _).
  unfold out in *. rewrite E in A. cbn [bind detect_again b_detect_again] in A. rewrite Ed in A.
  destruct (b_prepare b) as [p|[]| |]; cbn [bind] in A; try contradiction. destruct (b_detect_grids p) as [[ls p']|[]| |] eqn:Ep; try contradiction. destruct A as (-> & A & _).
  exists p, l, p'. split; [reflexivity|]. split; [exact Ep|]. destruct (A (lg_loc l)) as (_ & A1 & A2 & _). rewrite A1, A2. split; [exact D1|exact D2].
Qed.

Theorem any_window {B : Type} {IB : ImageBuffer B} (valid : B -> Prop) {Srt : Sorter spec_float} W H w h x0 y0 n b fill :
  lawful valid -> valid b -> has_pixels b W H fill -> 0 <= x0 -> 0 <= y0 -> x0 + w <= W -> y0 + h <= H -> 1 <= w <= 2 ^ 31 -> 1 <= h <= 2 ^ 31 ->
  ends_alike (T := spec_float) (let* p := b_prepare (Window b x0 y0 w h) in b_detect_again n p)
    (let* p := prepare_from_greyscale w h (fun x y => fill (x0 + x) (y0 + y)) in detect_again n p).
Proof.
  intros Lw V (S1 & S2 & G) H1 H2 H3 H4 Hw Hh. apply (any_greyscale (window_fits valid) (window_lawful B IB valid Lw) w h Hw Hh).
  - unfold window_fits. cbn. rewrite S1, S2. repeat (split; [assumption || lia|]). lia.
  - split; [reflexivity|]. split; [reflexivity|]. intros x y Hx Hy. cbn. apply G; lia.
Qed.

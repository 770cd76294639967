(** The pictures written for debugging, and the texts of the errors. *)
From Coq Require Import String.
From Verif Require Import Base Lib ModelDecode ModelImage SpecImage SpecQR FloodProofs RegionProofs HistoryProofs SearchProofs ModelOutput
  FormatProofs LayoutProofs RawProofs
  GridProofs ExtProofs.
From Coq Require Import ZifyBool ZifyNat.
Ltac Zify.zify_post_hook ::= Z.div_mod_to_equations.
Open Scope Z_scope.

(** What the texts say: the kind of the error, and in brackets what is wrong. *)
Definition error_kind (e : deqr_error) : string :=
  match e with
  | IoError => "IoError" | DataUnderflow => "DataUnderflow" | DataOverflow => "DataOverflow" | UnknownDataType => "UnknownDataType"
  | DataEcc | FormatEcc => "Ecc" | InvalidVersion => "InvalidVersion" | InvalidGridSize => "InvalidGridSize" | EncodingError => "Encoding"
  end.
Definition error_reason (e : deqr_error) : string :=
  match e with
  | IoError => "Could not write to output" | DataUnderflow => "Expected more bits to decode" | DataOverflow => "Expected less bits to decode"
  | UnknownDataType => "DataType not known or not implemented" | DataEcc => "Too many errors to correct" | FormatEcc => "Version information corrupt"
  | InvalidVersion | InvalidGridSize => "Invalid version or corrupt" | EncodingError => "Not UTF8"
  end.

Lemma message_text e : error_message e = (error_kind e ++ "(" ++ error_reason e ++ ")")%string.
Proof. destruct e; reflexivity. Qed.

Lemma message_injective e e' : error_message e = error_message e' -> e = e'.
Proof. destruct e, e'; cbn; intros H; (reflexivity || discriminate H). Qed.

(** What is seen at a place of a picture. *)
Definition shows {A} (c : canvas A) (w h : Z) (f : Z -> Z -> A) : Prop :=
  cv_w c = w /\ cv_h c = h /\ Z.of_nat (length (cv_px c)) = w * h /\
  forall x y d, 0 <= x < w -> 0 <= y < h -> nth (Z.to_nat (y * w + x)) (cv_px c) d = f x y.

Section Draw.
Context {E A : Type} (w h : Z) (body : Z -> Z -> canvas A -> res E (canvas A)) (f : Z -> Z -> A).
Hypothesis Hw : 0 <= w < 2 ^ 32.
Hypothesis Hh : 0 <= h < 2 ^ 32.
Hypothesis Hbody : forall x y c, 0 <= x < w -> 0 <= y < h -> body x y c = canvas_put c (as_u32 x) (as_u32 y) (f x y).

(** The first [k] pixels are drawn. *)
Let upto (k : Z) (c : canvas A) : Prop :=
  cv_w c = w /\ cv_h c = h /\ Z.of_nat (length (cv_px c)) = w * h /\
  forall x y d, 0 <= x < w -> 0 <= y < h -> y * w + x < k -> nth (Z.to_nat (y * w + x)) (cv_px c) d = f x y.

Lemma draw_step x y c : 0 <= x < w -> 0 <= y < h -> upto (y * w + x) c ->
  exists c', body x y c = Ok c' /\ upto (y * w + (x + 1)) c'.
Proof using Hw Hh Hbody.
  intros Hx Hy (W & H & L & P). rewrite Hbody by assumption. unfold canvas_put, as_u32.
  rewrite !Z.mod_small by lia. rewrite W, H.
  replace ((0 <=? x) && (x <? w) && (0 <=? y) && (y <? h)) with true by lia.
  assert (B : 0 <= y * w + x < w * h) by nia.
  rewrite aset_ok by lia. cbn [bind]. eexists. split; [reflexivity|].
  split; [reflexivity|]. split; [reflexivity|]. cbn [cv_px cv_w cv_h]. rewrite length_upd.
  split; [exact L|]. intros x' y' d Hx' Hy' Hk.
  rewrite nth_upd by lia.
  destruct (Nat.eqb _ _) eqn:Q.
  - assert (Q' : y' * w + x' = y * w + x).
    { apply Nat.eqb_eq in Q. assert (0 <= y' * w + x') by nia. lia. }
    assert (y' = y) by nia. assert (x' = x) by nia. subst. reflexivity.
  - apply P; [assumption|assumption|]. apply Nat.eqb_neq in Q. assert (y' * w + x' <> y * w + x) by (intros Z; apply Q; rewrite Z; reflexivity). lia.
Qed.

Lemma draw_shows (zero : A) : exists c,
  for_each (zrange 0 h) (fun y c => for_each (zrange 0 w) (fun x c => body x y c) c)
    (canvas_new zero (as_u32 w) (as_u32 h)) = Ok c /\ shows c w h f.
Proof using Hw Hh Hbody.
  destruct (@zfor_ok E (canvas A) (fun y => upto (y * w)) (fun y c => for_each (zrange 0 w) (fun x c => body x y c) c)
              0 h (canvas_new zero (as_u32 w) (as_u32 h))) as (c & Ec & U).
  - lia.
  - unfold upto, canvas_new, as_u32. rewrite !Z.mod_small by lia. cbn [cv_w cv_h cv_px]. split; [reflexivity|]. split; [reflexivity|].
    rewrite repeat_length. split; [nia|]. intros x y d Hx Hy Hk. exfalso. nia.
  - intros y c Hy U.
    destruct (@zfor_ok E (canvas A) (fun x => upto (y * w + x)) (fun x c => body x y c) 0 w c) as (c' & E' & U').
    + lia.
    + rewrite Z.add_0_r. exact U.
    + intros x c' Hx U'. exact (draw_step x y c' Hx Hy U').
    + exists c'. split; [exact E'|]. replace ((y + 1) * w) with (y * w + w) by lia. exact U'.
  - exists c. split; [exact Ec|]. destruct U as (W & H & L & P). split; [exact W|]. split; [exact H|].
    split; [exact L|]. intros x y d Hx Hy. apply P; [assumption|assumption|]. nia.
Qed.
End Draw.

Theorem grid_shown g sym : readable g sym -> 0 <= g_size g < 2 ^ 32 ->
  exists c, grid_picture g = Ok c /\ shows c (g_size g) (g_size g) (fun x y => if sym y x then 0 else 255).
Proof.
  intros Hr Hs. unfold grid_picture.
  apply (draw_shows (g_size g) (g_size g)
    (fun x y c => let* b := g_bit g y x in canvas_put c (as_u32 x) (as_u32 y) (if b then 0 else 255))); [exact Hs|exact Hs|].
  intros x y c Hx Hy. rewrite (Hr y x Hy Hx). reflexivity.
Qed.

(** A grid made from the picture is decoded like the grid itself. *)
Theorem grid_again g sym c : readable g sym -> 9 <= g_size g < 2 ^ 32 -> grid_picture g = Ok c ->
  exists g', @simple_from_func deqr_error (cv_w c) (fun x y => nth (Z.to_nat (y * cv_w c + x)) (cv_px c) 255 =? 0) = Ok g' /\
    grid_decode (simple_grid g') = grid_decode g /\
    forall W (wr : W -> list Z -> W * bool) w, grid_decode_to wr (simple_grid g') w = grid_decode_to wr g w.
Proof.
  intros Hr Hs Ec. destruct (grid_shown g sym Hr ltac:(lia)) as (c' & Ec' & (W & _ & _ & P)).
  rewrite Ec in Ec'. injection Ec' as <-.
  destruct (simple_grid_stores (cv_w c) (fun x y => nth (Z.to_nat (y * cv_w c + x)) (cv_px c) 255 =? 0) ltac:(lia)) as (g' & E' & S' & B').
  exists g'. split; [exact E'|].
  assert (S : same_modules g (simple_grid g')).
  { split; [rewrite S', W; reflexivity|]. intros y x Hy Hx. rewrite (Hr y x Hy Hx), B' by lia. rewrite W, P by assumption.
    destruct (sym y x); reflexivity. }
  destruct (decode_same g (simple_grid g') S ltac:(lia)) as (D1 & D2 & _).
  split; [symmetry; exact D2|]. intros V wr w. symmetry. apply D1.
Qed.

(** The colour shown for a colour byte. *)
Definition byte_rgb (b : Z) : Z * Z * Z :=
  if b =? 0 then (255, 255, 255) else if b =? 1 then (0, 0, 0) else nth (Z.to_nat ((b - 2) mod 8)) COLORS (0, 0, 0).

Lemma rgb_white b : 0 <= b -> (byte_rgb b = (255, 255, 255) <-> b = 0).
Proof.
  intros Hb. unfold byte_rgb. destruct (b =? 0) eqn:E0; [split; [lia|reflexivity]|].
  split; [|lia]. destruct (b =? 1); [discriminate|]. intros H. exfalso. revert H.
  assert (M : 0 <= (b - 2) mod 8 < 8) by (apply Z.mod_pos_bound; lia).
  remember ((b - 2) mod 8) as k. clear Heqk.
  assert (k = 0 \/ k = 1 \/ k = 2 \/ k = 3 \/ k = 4 \/ k = 5 \/ k = 6 \/ k = 7) as D by lia.
  destruct D as [-> |[-> |[-> |[-> |[-> |[-> |[-> | -> ]]]]]]]; discriminate.
Qed.

Lemma rgb_black b : 0 <= b -> (byte_rgb b = (0, 0, 0) <-> b = 1).
Proof.
  intros Hb. unfold byte_rgb. destruct (b =? 0) eqn:E0; [split; [discriminate|lia]|].
  destruct (b =? 1) eqn:E1; [split; [lia|reflexivity]|].
  split; [|lia]. intros H. exfalso. revert H.
  assert (M : 0 <= (b - 2) mod 8 < 8) by (apply Z.mod_pos_bound; lia).
  remember ((b - 2) mod 8) as k. clear Heqk.
  assert (k = 0 \/ k = 1 \/ k = 2 \/ k = 3 \/ k = 4 \/ k = 5 \/ k = 6 \/ k = 7) as D by lia.
  destruct D as [-> |[-> |[-> |[-> |[-> |[-> |[-> | -> ]]]]]]]; discriminate.
Qed.

(** Eight colours in turn, all different. *)
Lemma rgb_same b b' : 2 <= b -> 2 <= b' -> (byte_rgb b = byte_rgb b' <-> b mod 8 = b' mod 8).
Proof.
  intros H H'. unfold byte_rgb. replace (b =? 0) with false by lia. replace (b =? 1) with false by lia. replace (b' =? 0) with false by lia. replace (b' =? 1) with false by lia.
  assert (M : forall b, 0 <= (b - 2) mod 8 < 8) by (intros; apply Z.mod_pos_bound; lia). pose proof (M b) as M1. pose proof (M b') as M2. clear M.
  assert (E : b mod 8 = b' mod 8 <-> (b - 2) mod 8 = (b' - 2) mod 8) by (clear; split; intros; Z.div_mod_to_equations; lia). rewrite E. clear E.
  revert M1 M2. generalize ((b - 2) mod 8) as k, ((b' - 2) mod 8) as k'. clear. intros k k' M1 M2. split; [|intros ->; reflexivity].
  assert (k = 0 \/ k = 1 \/ k = 2 \/ k = 3 \/ k = 4 \/ k = 5 \/ k = 6 \/ k = 7) as D by lia.
  assert (k' = 0 \/ k' = 1 \/ k' = 2 \/ k' = 3 \/ k' = 4 \/ k' = 5 \/ k' = 6 \/ k' = 7) as D' by lia.
  destruct D as [-> |[-> |[-> |[-> |[-> |[-> |[-> | -> ]]]]]]]; destruct D' as [-> |[-> |[-> |[-> |[-> |[-> |[-> | -> ]]]]]]]; try reflexivity; discriminate.
Qed.

Theorem state_shown p : wf_image (p_buf p) -> (forall q, in_image (p_buf p) q -> 0 <= pix (p_buf p) q) ->
  p_w p < 2 ^ 32 -> p_h p < 2 ^ 32 ->
  exists c, state_picture p = Ok c /\ shows c (p_w p) (p_h p) (fun x y => byte_rgb (pix (p_buf p) (x, y))).
Proof.
  intros W B Hw Hh. unfold state_picture.
  apply (draw_shows (p_w p) (p_h p)
    (fun x y c =>
            let* b := get_pixel (p_buf p) x y in
            let* rgb :=
              if b =? 0 then Ok (255, 255, 255)
              else if b =? 1 then Ok (0, 0, 0)
              else let* b' := get_pixel (p_buf p) x y in
                   let* i := usub b' 2 in
                   aget COLORS (Z.to_nat (i mod 8)) in
            canvas_put c (as_u32 x) (as_u32 y) rgb)).
  - destruct W as (W1 & W2 & _). unfold p_w in *. lia.
  - destruct W as (W1 & W2 & _). unfold p_h in *. lia.
  - intros x y c Hx Hy. assert (I : in_image (p_buf p) (x, y)) by (split; assumption).
    rewrite (get_pixel_ok _ _ _ W I). cbn [bind]. specialize (B _ I). unfold byte_rgb.
    destruct (_ =? 0) eqn:E0; [reflexivity|]. destruct (_ =? 1) eqn:E1; [reflexivity|].
    unfold usub. replace (2 <=? pix (p_buf p) (x, y)) with true by lia. cbn [bind].
    rewrite (@aget_ok _ _ COLORS _ (0, 0, 0)) by (cbn [length COLORS]; pose proof (Z.mod_pos_bound (pix (p_buf p) (x, y) - 2) 8); lia).
    reflexivity.
Qed.

(** In a state reached from a picture: white is what is white in the picture, a component has one colour. *)
Theorem state_reached I0 p : reg_inv I0 p -> im_w I0 < 2 ^ 32 -> im_h I0 < 2 ^ 32 ->
  exists c f, state_picture p = Ok c /\ shows c (im_w I0) (im_h I0) (fun x y => f (x, y)) /\
    (forall q, in_image I0 q -> (f q = (255, 255, 255) <-> pix I0 q = 0)) /\
    (forall q, in_image I0 q -> (f q = (0, 0, 0) <-> pix (p_buf p) q = 1)) /\
    (forall q r, iblob I0 q r -> f r = f q) /\
    (forall q r, in_image I0 q -> in_image I0 r -> 2 <= pix (p_buf p) q -> 2 <= pix (p_buf p) r -> (f q = f r <-> pix (p_buf p) q mod 8 = pix (p_buf p) r mod 8)).
Proof.
  intros R Hw Hh. pose proof (ri_base _ _ R) as B. destruct (bi_size _ _ B) as [Sw Sh].
  assert (Pos : forall q, in_image I0 q -> 0 <= pix (p_buf p) q).
  { intros q I. destruct (ri_color _ _ R q I) as [H|H]; [lia|]. apply (ri_keys _ _ R) in H. lia. }
  destruct (state_shown p) as (c & Ec & S).
  - exact (bi_wf _ _ B).
  - intros q I. apply Pos. apply (same_size_in _ _ _ (bi_size _ _ B)). exact I.
  - unfold p_w. rewrite Sw. exact Hw.
  - unfold p_h. rewrite Sh. exact Hh.
  - exists c, (fun q => byte_rgb (pix (p_buf p) q)). split; [exact Ec|]. unfold p_w, p_h in S. rewrite Sw, Sh in S.
    split; [exact S|]. split; [|split; [|split]].
    + intros q I. rewrite rgb_white by auto. apply (bi_white _ _ B q I).
    + intros q I. rewrite rgb_black by auto. reflexivity.
    + intros q r L. f_equal. exact (blob_color I0 _ _ _ B L).
    + intros q r _ _ Hq Hr. apply rgb_same; assumption.
Qed.

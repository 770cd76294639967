(** The search in terms of the picture (C46). *)
From Verif Require Import Base Lib ModelImage ModelGeometry ModelDetect ModelIdentify SpecImage SpecScan SpecThreshold SpecFinder
  FloodProofs RegionProofs PrepareProofs ThresholdProofs ScanProofs DetectProofs CornerProofs SearchProofs HistoryProofs CenterProofs
  FinderProofs ImageFacts.
From Coq Require Import SpecFloat ZifyBool ZifyNat.
Open Scope Z_scope.
Set Bullet Behavior "Strict Subproofs".

(** A pixel of a point. *)
Definition px_of (p : point) : pixel := (px p, py p).

Lemma px_of_pt q : px_of (pt_of q) = q.
Proof. destruct q; reflexivity. Qed.

Lemma corners_region (S : pixel -> Prop) start k : corners_of S start k ->
  region_corners S start (px_of (k0 k)) (px_of (k1 k)) (px_of (k2 k)) (px_of (k3 k)).
Proof.
  intros (far & Sf & F & (q0 & q1 & q2 & q3 & S0 & S1 & S2 & S3 & ->) & X). cbn [k0 k1 k2 k3] in *. rewrite !px_of_pt.
  do 4 (split; [assumption|]). exists far. split; [assumption|]. split; [exact F|]. exact X.
Qed.

Lemma triangle_tri a b c : triangle2 (px_of a) (px_of b) (px_of c) = tri a b c.
Proof. unfold triangle2, tri, px_of. cbn. ring. Qed.

Lemma near_meet k m : 0 < area1 k + area3 k -> near_cross k px (px m) -> near_cross k py (py m) ->
  diagonals_meet (px_of (k0 k)) (px_of (k1 k)) (px_of (k2 k)) (px_of (k3 k)) (px_of m).
Proof.
  intros Hn Hx Hy. unfold near_cross in *. unfold px_of.
  exists (area1 k * px (k1 k) + area3 k * px (k3 k)), (area1 k * py (k1 k) + area3 k * py (k3 k)), (area1 k + area3 k). cbn [fst snd].
  split; [exact Hn|]. split; [unfold area1, area3, tri; ring|]. split; [unfold area1, area3, tri; ring|].
  split.
  - rewrite Z.abs_mul in Hx. rewrite (Z.mul_comm (area1 k + area3 k) (px m)). exact Hx.
  - rewrite Z.abs_mul in Hy. rewrite (Z.mul_comm (area1 k + area3 k) (py m)). exact Hy.
Qed.

Lemma finder_found I0 y x l : 0 <= y < im_h I0 -> 0 <= x <= im_w I0 -> candidate I0 y x l -> finder_shape I0 y l ->
  finder_at (im_w I0) (im_h I0) (pix I0) y (l_left l) (l_stone l) (l_right l).
Proof.
  intros Hy Hx C (A & B & D). split; [exact Hy|]. split; [exists x; apply candidate_row; assumption|].
  split; [exact A|]. split; [exact B|exact D].
Qed.

(** The pixels a capstone consists of. *)
Definition cap_at (w h : Z) (col : pixel -> Z) (q : pixel) (c : capstone spec_float) : Prop :=
  found w h col q (px_of (k0 (cap_corners c))) (px_of (k1 (cap_corners c))) (px_of (k2 (cap_corners c))) (px_of (k3 (cap_corners c)))
    (px_of (cap_center c)).

Section Search.
Context (I0 : image) (Hw : 1 <= im_w I0 <= 32768) (Hh : im_h I0 <= 32768).
Notation W := (im_w I0).
Notation H := (im_h I0).

Lemma blob_small q r : iblob I0 q r -> 0 <= fst r <= max_dim /\ 0 <= snd r <= max_dim.
Proof. intros B. apply blob_in in B. destruct B as [[X Y] _]. unfold max_dim. lia. Qed.

Lemma made_found q o : (exists left stone, finder_at W H (pix I0) (snd q) left stone (fst q)) ->
  made (T := spec_float) I0 q o ->
  match o with Some c => cap_at W H (pix I0) q c | None => flat W H (pix I0) q end.
Proof.
  intros F M. destruct o as [c|]; cbn [made] in M.
  - destruct M as [K [C1 C2]]. specialize (K ltac:(unfold max_dim; lia) ltac:(unfold max_dim; lia)).
    destruct (region_center (iblob I0 q) q _ _ (blob_small q) K C1) as (P0 & P1 & P2 & P3 & pt & E & N1 & N2).
    rewrite C2 in E. injection E as <-.
    split; [exact F|]. split; [apply corners_region; exact K|]. rewrite !triangle_tri.
    split; [exact P0|]. split; [exact P1|]. split; [exact P2|]. split; [exact P3|].
    apply near_meet; try assumption. pose proof (area_sum (cap_corners c)). lia.
  - destruct M as (k & K & C). specialize (K ltac:(unfold max_dim; lia) ltac:(unfold max_dim; lia)).
    split; [exact F|]. exists (px_of (k0 k)), (px_of (k1 k)), (px_of (k2 k)), (px_of (k3 k)). split; [apply corners_region; exact K|].
    rewrite triangle_tri. apply (create_iff k 7) in C; [|eapply region_small; [apply blob_small|exact K]|lia].
    pose proof (area0_nonneg _ _ _ K). unfold area0 in *. lia.
Qed.

(** A search of a fresh image. *)
Theorem search_fresh p0 : fresh I0 p0 ->
  exists caps p', capstones_from_image (T := spec_float) p0 = Ok (caps, p')
    /\ (exists rings, Forall2 (cap_at W H (pix I0)) rings caps /\ ForallOrdPairs (fun a b => ~ blob W H (pix I0) a b) rings)
    /\ (forall y left stone right, finder_at W H (pix I0) y left stone right ->
          exists q, (blob W H (pix I0) q (right, y) \/ blob W H (pix I0) q (stone, y))
            /\ ((exists c, In c caps /\ cap_at W H (pix I0) q c) \/ flat W H (pix I0) q)).
Proof.
  intros Fr. assert (R0 : reached64 I0 p0) by (apply reached_fresh; exact Fr).
  destruct (search64 I0 p0 R0 Hw Hh) as (caps & p' & E & R' & G & (rings & F & O) & Nn & Cl & _).
  exists caps, p'. split; [exact E|]. split.
  - exists rings. split; [|exact O]. eapply Forall2_weaken; [exact F|].
    intros q c (_ & _ & _ & _ & (y & x & l & Hy & Hx & -> & C & S) & K & CO).
    apply (made_found (l_right l, y) (Some c)); [|split; assumption].
    exists (l_left l), (l_stone l). cbn [fst snd]. apply (finder_found I0 y x l); [assumption|lia|assumption|assumption].
  - intros y left stone right (Hy & (stop & Row) & B1 & B2 & ring & inner & A1 & A2 & A3).
    set (l := MkLine left stone right).
    assert (Hs : 1 <= stop <= W).
    { destruct Row as (n1 & n2 & n3 & n4 & n5 & R). lia. }
    assert (C : candidate I0 y stop l) by (apply candidate_row; [lia|exact Row]).
    assert (Sh : finder_shape I0 y l) by (split; [exact B1|]; split; [exact B2|]; exists ring, inner; auto).
    assert (N := Nn y stop l Hy Hs C).
    assert (D := candidate_line I0 y stop l Hy C).
    assert (Dec : forall q, claimed p' q \/ ~ claimed p' q) by (intros q; unfold claimed; lia).
    assert (Un : forall q, in_image I0 q -> ~ claimed p0 q).
    { intros q Iq Cq. destruct Fr as (-> & _ & _ & B). specialize (B q Iq). unfold claimed in Cq. cbn [p_buf] in *. lia. }
    assert (X : forall q, in_image I0 q -> claimed p' q ->
      exists q0, blob W H (pix I0) q0 q /\ ((exists c, In c caps /\ cap_at W H (pix I0) q0 c) \/ flat W H (pix I0) q0)).
    { intros q Iq Cq. destruct (Cl q Iq Cq (Un q Iq)) as (_ & y' & x' & l' & Hy' & Hx' & C' & (_ & _ & S') & B' & o & M & In').
      exists (l_right l', y'). split; [exact B'|].
      assert (F' : exists left stone, finder_at W H (pix I0) (snd (l_right l', y')) left stone (fst (l_right l', y'))).
      { exists (l_left l'), (l_stone l'). cbn [fst snd]. apply (finder_found I0 y' x' l'); [assumption|lia|assumption|assumption]. }
      pose proof (made_found _ o F' M) as Mf. destruct o as [c|]; [left; exists c; split; [apply In'; reflexivity|exact Mf]|right; exact Mf]. }
    destruct (D (l_right l) ltac:(tauto)) as [Ir _]. destruct (D (l_stone l) ltac:(tauto)) as [Is _].
    destruct (Dec (right, y)) as [Cr|Cr].
    { destruct (X _ Ir Cr) as (q0 & B & Z). exists q0. split; [left; exact B|exact Z]. }
    destruct (Dec (stone, y)) as [Cs|Cs].
    { destruct (X _ Is Cs) as (q0 & B & Z). exists q0. split; [right; exact B|exact Z]. }
    exfalso. apply N. split; [exact Cr|]. split; [exact Cs|exact Sh].
Qed.
End Search.

(** What a search of the picture [col] returns. *)
Definition searched (w h : Z) (col : pixel -> Z) (caps : list (capstone spec_float)) : Prop :=
  (exists rings, Forall2 (cap_at w h col) rings caps /\ ForallOrdPairs (fun a b => ~ blob w h col a b) rings)
  /\ (forall y left stone right, finder_at w h col y left stone right ->
        exists q, (blob w h col q (right, y) \/ blob w h col q (stone, y))
          /\ ((exists c, In c caps /\ cap_at w h col q c) \/ flat w h col q)).

Lemma searched_same w h f g caps : (forall q, inside w h q -> (f q = 0 <-> g q = 0)) -> searched w h f caps -> searched w h g caps.
Proof.
  intros E ((rings & F & O) & C). assert (E' : forall q, inside w h q -> (g q = 0 <-> f q = 0)) by (intros q Hq; specialize (E q Hq); tauto).
  split.
  - exists rings. split; [eapply Forall2_weaken; [exact F|]; intros q c; apply found_same1; exact E|].
    clear - E O. induction O as [|a l Ha O IH]; constructor; [|exact IH]. eapply Forall_impl; [|exact Ha]. intros b N B. apply N. apply (blob_same w h f g E). exact B.
  - intros y left stone right Fi. destruct (C y left stone right (finder_at_same1 w h g f E' _ _ _ _ Fi)) as (q & B & X).
    exists q. split; [destruct B as [B|B]; [left|right]; apply (blob_same w h f g E); exact B|].
    destruct X as [(c & I & X)|X]; [left; exists c; split; [exact I|]; apply (found_same1 w h f g E); exact X|right; apply (flat_same1 w h f g E); exact X].
Qed.

Lemma search_fresh' I0 p0 : 1 <= im_w I0 <= 32768 -> im_h I0 <= 32768 -> fresh I0 p0 ->
  exists caps p', capstones_from_image (T := spec_float) p0 = Ok (caps, p') /\ searched (im_w I0) (im_h I0) (pix I0) caps.
Proof. intros Hw Hh F. destruct (search_fresh I0 Hw Hh p0 F) as (caps & p' & E & X). exists caps, p'. split; [exact E|exact X]. Qed.

Lemma fresh_size w h p : fresh (p_buf p) p -> p_w p = w -> p_h p = h -> im_w (p_buf p) = w /\ im_h (p_buf p) = h.
Proof. intros _ <- <-. split; reflexivity. Qed.

(** C46 for black and white pictures. *)
Theorem search_bitmap w h fill : 1 <= w <= 32768 -> 0 <= h <= 32768 ->
  exists p caps p', prepare_from_bitmap w h fill = Ok p /\ capstones_from_image (T := spec_float) p = Ok (caps, p')
    /\ searched w h (fun q => if fill (fst q) (snd q) then 1 else 0) caps.
Proof.
  intros Hw Hh. destruct (bitmap_ok w h fill ltac:(lia) ltac:(lia)) as (p & E & S1 & S2 & F & P); [unfold usize_max; nia|].
  destruct (search_fresh' (p_buf p) p) as (caps & p' & Es & X); [rewrite <- S1 in Hw; exact Hw|rewrite <- S2 in Hh; apply Hh|exact F|].
  exists p, caps, p'. split; [exact E|]. split; [exact Es|]. unfold p_w, p_h in S1, S2. rewrite S1, S2 in X.
  eapply searched_same; [|exact X]. intros [x y] Hq. specialize (P x y Hq).
  unfold get_pixel_at in P. rewrite get_pixel_ok in P; [|apply F|split; unfold p_w, p_h in *; destruct Hq; rewrite ?S1, ?S2; assumption].
  cbn [bind] in P. cbn [fst snd]. destruct F as (_ & _ & _ & B). destruct (B (x, y)) as [Z|Z].
  { split; unfold p_w, p_h in *; destruct Hq; rewrite ?S1, ?S2; assumption. }
  - rewrite Z in *. cbn in P. destruct (fill x y); [discriminate|]. tauto.
  - rewrite Z in *. cbn in P. destruct (fill x y); [|discriminate]. lia.
Qed.

(** Thresholding, exactly. *)
Theorem greyscale_exact w h fill : 0 <= w < 2 ^ 31 -> 0 <= h -> w * h <= usize_max ->
  (forall x y, inside w h (x, y) -> 0 <= fill x y <= 255) ->
  exists p, prepare_from_greyscale w h fill = Ok p /\ p_w p = w /\ p_h p = h /\ fresh (p_buf p) p
    /\ forall x y, inside w h (x, y) ->
         get_pixel_at p x y = Ok (if is_dark w (fun q => fill (fst q) (snd q)) (x, y) then Black else White).
Proof.
  intros Hw Hh U G. destruct (greyscale_ok w h fill Hw Hh U G) as (p & E & S1 & S2 & F & _).
  exists p. split; [exact E|]. split; [exact S1|]. split; [exact S2|]. split; [exact F|]. intros x y Hq.
  unfold prepare_from_greyscale in E. rewrite usz_ok in E by assumption. cbn [bind] in E.
  change (MkImage w h (collect w h fill)) with (image_of w h fill) in E.
  assert (Px : forall q, inside w h q -> pix (image_of w h fill) q = fill (fst q) (snd q)) by (intros; apply pix_image_of; assumption).
  destruct (threshold_exact (image_of w h fill)) as (im' & T & W' & [Z1 Z2] & P).
  - apply image_of_wf; lia.
  - intros [x' y'] Hq'. rewrite Px by exact Hq'. apply G, Hq'.
  - cbn. lia.
  - unfold prepare in E. rewrite T in E. cbn [bind] in E. injection E as <-.
    unfold get_pixel_at. cbn [p_buf] in *.
    rewrite get_pixel_ok; [|exact W'|apply (same_size_in _ _ _ (conj Z1 Z2)); exact Hq]. cbn [bind].
    rewrite P by exact Hq. change (im_w (image_of w h fill)) with w.
    rewrite (is_dark_ext w h _ (fun q => fill (fst q) (snd q)) (x, y) Hq Px). destruct (is_dark _ _ _); reflexivity.
Qed.

(** C46 for greyscale pictures. *)
Theorem search_greyscale w h fill : 1 <= w <= 32768 -> 0 <= h <= 32768 ->
  (forall x y, inside w h (x, y) -> 0 <= fill x y <= 255) ->
  exists p caps p', prepare_from_greyscale w h fill = Ok p /\ capstones_from_image (T := spec_float) p = Ok (caps, p')
    /\ searched w h (fun q => if is_dark w (fun r => fill (fst r) (snd r)) q then 1 else 0) caps.
Proof.
  intros Hw Hh G. destruct (greyscale_exact w h fill ltac:(lia) ltac:(lia)) as (p & E & S1 & S2 & F & P); [unfold usize_max; nia|assumption|].
  destruct (search_fresh' (p_buf p) p) as (caps & p' & Es & X); [rewrite <- S1 in Hw; exact Hw|rewrite <- S2 in Hh; apply Hh|exact F|].
  exists p, caps, p'. split; [exact E|]. split; [exact Es|]. unfold p_w, p_h in S1, S2. rewrite S1, S2 in X.
  eapply searched_same; [|exact X]. intros [x y] Hq. specialize (P x y Hq).
  unfold get_pixel_at in P. rewrite get_pixel_ok in P; [|apply F|split; unfold p_w, p_h in *; destruct Hq; rewrite ?S1, ?S2; assumption].
  cbn [bind] in P. destruct F as (_ & _ & _ & B). destruct (B (x, y)) as [Z|Z].
  { split; unfold p_w, p_h in *; destruct Hq; rewrite ?S1, ?S2; assumption. }
  - rewrite Z in *. cbn in P. destruct (is_dark _ _ _); [discriminate|]. tauto.
  - rewrite Z in *. cbn in P. destruct (is_dark _ _ _); [|discriminate]. lia.
Qed.

(** Below 16 columns the running means have no memory, and nothing is ever dark. *)
Lemma narrow_white w lum q : 0 <= w < 16 -> 0 <= fst q < w -> 0 <= snd q -> 0 <= lum q -> is_dark w lum q = false.
Proof.
  intros Hw Hx Hy Hl. unfold is_dark, local_mean.
  assert (M : memory w = 1).
  { unfold memory. assert (w / 8 < 2) by (apply Z.div_lt_upper_bound; lia). lia. }
  assert (S1 : forall m, smooth (memory w) (fun k => lum (snake w m k)) (S (Z.to_nat (place w m q))) = lum q).
  { intros m. rewrite M. cbn [smooth]. rewrite Z2Nat.id by (unfold place; destruct (xorb _ _); nia).
    rewrite place_snake by assumption. change (1 - 1) with 0. rewrite Z.mul_0_r. cbn. reflexivity. }
  rewrite !S1, M. apply Z.ltb_ge. apply Z.div_le_upper_bound; lia.
Qed.

Lemma greyscale_narrow w h fill : 0 <= w < 16 -> 0 <= h -> w * h <= usize_max ->
  (forall x y, inside w h (x, y) -> 0 <= fill x y <= 255) ->
  exists p, prepare_from_greyscale w h fill = Ok p /\ forall x y, inside w h (x, y) -> get_pixel_at p x y = Ok White.
Proof.
  intros Hw Hh U G. destruct (greyscale_exact w h fill ltac:(lia) Hh U G) as (p & E & _ & _ & _ & P).
  exists p. split; [exact E|]. intros x y Hq. rewrite P by exact Hq.
  rewrite narrow_white; [reflexivity|lia| | |].
  - apply Hq. - apply Hq. - apply G, Hq.
Qed.

(** Rounding down keeps the running means below 254 and a bit. *)
Lemma smooth_bound ts f n : 1 <= ts -> (forall k, 0 <= k < Z.of_nat n -> 0 <= f k <= 255) -> 0 <= smooth ts f n <= 254 * ts + 1.
Proof.
  intros Ht. induction n as [|n IH]; intros Hf; [change (smooth ts f 0) with 0; lia|]. cbn [smooth].
  specialize (IH ltac:(intros; apply Hf; lia)). specialize (Hf (Z.of_nat n) ltac:(lia)).
  assert (0 <= smooth ts f n * (ts - 1) / ts) by (apply Z.div_pos; nia).
  assert (smooth ts f n * (ts - 1) / ts < 254 * ts - 253) by (apply Z.div_lt_upper_bound; nia). lia.
Qed.

Lemma bright_white w h lum q : inside w h q -> (forall p, inside w h p -> 0 <= lum p <= 255) -> 241 <= lum q -> is_dark w lum q = false.
Proof.
  intros Hq G Hl. destruct (Z_lt_ge_dec w 16) as [N|N].
  { destruct Hq as [Q1 Q2]. apply narrow_white; lia. }
  unfold is_dark, local_mean.
  assert (M : 2 <= memory w) by (unfold memory; assert (2 <= w / 8) by (apply Z.div_le_lower_bound; lia); lia).
  assert (S1 : forall m, 0 <= smooth (memory w) (fun k => lum (snake w m k)) (S (Z.to_nat (place w m q))) <= 254 * memory w + 1).
  { intros m. apply smooth_bound; [lia|]. intros k Hk. apply G.
    destruct Hq as [Ix Iy]. assert (Hp : 0 <= place w m q < w * h) by (unfold place; destruct (xorb _ _); nia).
    unfold inside, snake. cbn [fst snd].
    pose proof (Z.div_mod k w ltac:(lia)) as D. pose proof (Z.mod_pos_bound k w ltac:(lia)) as Mo.
    assert (0 <= k / w) by (apply Z.div_pos; lia). assert (k / w < h) by (apply Z.div_lt_upper_bound; lia).
    destruct (xorb _ _); lia. }
  pose proof (S1 false). pose proof (S1 true). apply Z.ltb_ge.
  assert ((smooth (memory w) (fun k => lum (snake w false k)) (S (Z.to_nat (place w false q))) +
           smooth (memory w) (fun k => lum (snake w true k)) (S (Z.to_nat (place w true q)))) * 95 / (200 * memory w) < 242); [|lia].
  apply Z.div_lt_upper_bound; lia.
Qed.

Lemma greyscale_bright_sharp w h fill : 0 <= w < 2 ^ 31 -> 0 <= h -> w * h <= usize_max ->
  (forall x y, inside w h (x, y) -> 0 <= fill x y <= 255) ->
  exists p, prepare_from_greyscale w h fill = Ok p /\
    forall x y, inside w h (x, y) -> 241 <= fill x y -> get_pixel_at p x y = Ok White.
Proof.
  intros Hw Hh U G. destruct (greyscale_exact w h fill Hw Hh U G) as (p & E & _ & _ & _ & P).
  exists p. split; [exact E|]. intros x y Hq Hb. rewrite P by exact Hq.
  rewrite (bright_white w h); [reflexivity|exact Hq| |exact Hb]. intros [x' y'] Hq'. apply G, Hq'.
Qed.

(** * Statements in terms of the picture *)

Lemma row_reports_spec I0 p y : reached64 I0 p -> 1 <= im_w I0 -> 0 <= y < im_h I0 ->
  exists cs, length cs = Z.to_nat (im_w I0) /\ (forall x, 0 <= x < im_w I0 -> get_pixel_at p x y = Ok (nth (Z.to_nat x) cs White)) /\
  exists os s, feed (scan_new (nth 0 cs White)) (tl cs ++ [White]) = Ok (os, s) /\ length os = Z.to_nat (im_w I0) /\
    forall x l, 1 <= x <= im_w I0 ->
      (nth (Z.to_nat (x - 1)) os None = Some l <->
       finder_row (im_w I0) (pix I0) y (l_left l) (l_stone l) (l_right l) x).
Proof.
  intros R Hw Hy. destruct (row_reports I0 p y R Hw Hy) as (cs & L & P & os & s & E & Lo & H).
  exists cs. split; [exact L|]. split; [exact P|]. exists os, s. split; [exact E|]. split; [exact Lo|].
  intros x l Hx. rewrite H by exact Hx. apply candidate_row. lia.
Qed.

Lemma row_regions I0 y left stone right stop : 0 <= y < im_h I0 ->
  finder_row (im_w I0) (pix I0) y left stone right stop ->
  0 <= left < stone /\ stone < right /\ right < stop /\ stop <= im_w I0 /\
  forall x p, x = left \/ x = stone \/ x = right -> reached64 I0 p ->
    in_image I0 (x, y) /\ pix I0 (x, y) <> 0 /\ exists r p', get_region p x y = Ok (r, p').
Proof.
  intros Hy (n1 & n2 & n3 & n4 & n5 & N1 & N2 & N3 & N4 & N5 & L0 & Es & Er & Ex & Lw & D1 & D2 & D3 & D4 & D5 & _).
  split; [lia|]. split; [lia|]. split; [lia|]. split; [lia|]. intros x p Hx R.
  assert (I : in_image I0 (x, y)) by (split; cbn; lia). split; [exact I|].
  assert (Nx : pix I0 (x, y) <> 0) by (destruct Hx as [->|[->| ->]]; [apply D1|apply D3|apply D5]; lia).
  split; [exact Nx|]. destruct (history_region I0 p x y R I Nx) as (reg & p' & E & _). exists reg, p'. exact E.
Qed.

Lemma search_returns I0 p0 : reached64 I0 p0 -> 1 <= im_w I0 <= 32768 -> im_h I0 <= 32768 ->
  exists caps p', capstones_from_image (T := spec_float) p0 = Ok (caps, p').
Proof. intros R Hw Hh. destruct (search64 I0 p0 R Hw Hh) as (caps & p' & E & _). exists caps, p'. exact E. Qed.

Lemma corners_spec (S : pixel -> Prop) start rows1 rows2 :
  (forall q, S q -> 0 <= fst q <= 32767 /\ 0 <= snd q <= 32767) -> S start ->
  (forall q, In q (rows_cells rows1) <-> S q) -> (forall q, In q (rows_cells rows2) <-> S q) ->
  Forall (fun r => r_left r <= r_right r) rows1 -> Forall (fun r => r_left r <= r_right r) rows2 ->
  exists f a0 a k,
    for_each rows1 first_update (first_new (pt_of start)) = Ok f
    /\ all_new (pt_of start) (fc_best f) = Ok a0
    /\ for_each rows2 all_update a0 = Ok a /\ all_best a = Ok k
    /\ region_corners S start (px_of (k0 k)) (px_of (k1 k)) (px_of (k2 k)) (px_of (k3 k)).
Proof.
  intros HS H0 H1 H2 F1 F2. destruct (corners_ok S start rows1 rows2 HS H0 H1 H2 F1 F2) as (f & a0 & a & k & E1 & E2 & E3 & E4 & K).
  exists f, a0, a, k. do 4 (split; [assumption|]). apply corners_region. exact K.
Qed.

Lemma no_columns {Srt : Sorter spec_float} p : wf_image (p_buf p) -> p_w p = 0 -> 0 < p_h p ->
  capstones_from_image (T := spec_float) p = Panic /\ detect_grids (T := spec_float) p = Panic.
Proof.
  intros W E H. assert (X := search_no_columns (T := spec_float) p W E H). split; [exact X|].
  unfold detect_grids. rewrite X. reflexivity.
Qed.

Lemma center_spec (S : pixel -> Prop) start k c :
  (forall q, S q -> 0 <= fst q <= 32767 /\ 0 <= snd q <= 32767) -> corners_of S start k ->
  persp_create (T := spec_float) k (n_of 7) (n_of 7) = Some c ->
  exists m, persp_map c (n_ratio 7 2) (n_ratio 7 2) = Ok m /\
    diagonals_meet (px_of (k0 k)) (px_of (k1 k)) (px_of (k2 k)) (px_of (k3 k)) (px_of m).
Proof.
  intros HS K C. destruct (region_center S start k c HS K C) as (P0 & P1 & P2 & P3 & m & E & N1 & N2).
  exists m. split; [exact E|]. apply near_meet; try assumption. pose proof (area_sum k). lia.
Qed.

Lemma create_spec (S : pixel -> Prop) start k :
  (forall q, S q -> 0 <= fst q <= 32767 /\ 0 <= snd q <= 32767) -> corners_of S start k ->
  (persp_create (T := spec_float) k (n_of 7) (n_of 7) = None <-> triangle2 (px_of (k1 k)) (px_of (k2 k)) (px_of (k3 k)) = 0).
Proof.
  intros HS K. rewrite triangle_tri, (create_iff k 7); [|eapply region_small; [exact HS|exact K]|lia].
  pose proof (area0_nonneg _ _ _ K). unfold area0 in *. lia.
Qed.

(** Properties of scanning with any implementation of the trait [ImageBuffer]: C74.
    Every theorem is followed by its assumptions and by a case meeting its hypotheses. *)
From Coq Require Import SpecFloat.
From Verif Require Import Base Lib ModelDecode ModelImage ModelGeometry ModelDetect ModelIdentify ModelOutput ModelBuffer SpecPayload SpecImage SpecThreshold SpecFinder SpecPicture SpecBuffer
  FormatProofs EndToEnd EncodeProofs GridProofs Refuted SymbolProofs FloodProofs PrepareProofs DrawProofs RenderProofs PictureProofs BufferProofs AnyBuffer PropSymbol PropPicture SpecQR.
From Coq Require Import ZifyBool.
Open Scope Z_scope.
Set Bullet Behavior "Strict Subproofs".

(** * C74 *)

(** Whatever the buffer is made of, as long as it keeps what is written to it: [prepare] and any number of calls of
    [detect_grids] end as they do for the library's own buffer with the same pixels, and every grid decodes alike. *)
Theorem C74_prepare {B : Type} {IB : ImageBuffer B} (valid : B -> Prop) {Srt : Sorter spec_float} w h n b fill :
  lawful valid -> 1 <= w <= 2 ^ 31 -> 1 <= h <= 2 ^ 31 -> valid b -> has_pixels b w h fill ->
  ends_alike (T := spec_float) (let* p := b_prepare b in b_detect_again n p) (let* p := prepare_from_greyscale w h fill in detect_again n p).
Proof. intros Lw Hw Hh. exact (any_greyscale valid Lw w h Hw Hh n b fill). Qed.
Print Assumptions C74_prepare.

(** The same for a buffer of zeros and ones that is used without preparation. *)
Theorem C74_without {B : Type} {IB : ImageBuffer B} (valid : B -> Prop) {Srt : Sorter spec_float} w h n b (fill : Z -> Z -> bool) :
  lawful valid -> 1 <= w <= 2 ^ 31 -> 1 <= h <= 2 ^ 31 -> valid b -> has_pixels b w h (fun x y => if fill x y then 1 else 0) ->
  ends_alike (T := spec_float) (let* p := b_without_preparation b in b_detect_again n p) (let* p := prepare_from_bitmap w h fill in detect_again n p).
Proof. intros Lw Hw Hh. exact (any_bitmap valid Lw w h Hw Hh n b fill). Qed.
Print Assumptions C74_without.

(** A buffer with any other pixel is refused. *)
Theorem C74_refused {B : Type} {IB : ImageBuffer B} (valid : B -> Prop) w h b fill :
  lawful valid -> 1 <= w <= 2 ^ 31 -> 1 <= h <= 2 ^ 31 -> valid b -> has_pixels b w h fill ->
  (exists x y, 0 <= x < w /\ 0 <= y < h /\ 2 <= fill x y) -> b_without_preparation b = Panic.
Proof. intros Lw Hw Hh. exact (any_refused valid Lw w h Hw Hh b fill). Qed.
Print Assumptions C74_refused.

(** A symbol of any message, shown by any lawful buffer, is scanned. *)
Theorem C74_message {B : Type} {IB : ImageBuffer B} (valid : B -> Prop) {Srt : Sorter spec_float} w h b fill v e mask msg sym m ox oy r :
  lawful valid -> 1 <= w <= 2 ^ 31 -> 1 <= h <= 2 ^ 31 -> valid b -> has_pixels b w h fill ->
  clear_picture w h (shade w fill) v sym m ox oy r -> 0 <= mask < 8 -> message_ok v msg -> fits v e msg -> is_symbol v e mask msg sym ->
  exists p l p', b_prepare b = Ok p /\ b_detect_grids (T := spec_float) p = Ok ([l], p')
    /\ grid_decode_to vec_writer (b_ref_grid p' (lg_loc l)) [] = (message_bytes msg, Ok (mkMeta v (level_bits e) mask))
    /\ (utf8_text (message_bytes msg) -> grid_decode (b_ref_grid p' (lg_loc l)) = Ok (mkMeta v (level_bits e) mask, message_bytes msg)).
Proof. exact (any_message valid w h b fill v e mask msg sym m ox oy r). Qed.
Print Assumptions C74_message.

(** The library's own buffer is lawful; so is an image of the crate [image] that keeps its pixels, up to [u32::MAX] on a
    side; and a window in a lawful buffer, and a lawful buffer seen with columns for rows. *)
Theorem C74_basic : lawful bytes_image.
Proof. exact basic_lawful. Qed.
Print Assumptions C74_basic.

Theorem C74_image_crate G (GI : GrayImage G) (valid : G -> Prop) : lawful_gray valid -> lawful (IB := OfGray GI) valid.
Proof. exact (gray_lawful G GI valid). Qed.
Print Assumptions C74_image_crate.

Theorem C74_views B (IB : ImageBuffer B) (valid : B -> Prop) : lawful valid -> lawful (window_fits valid) /\ lawful (fun b : flipped B => valid (fl_in b)).
Proof. intros Lw. split; [exact (window_lawful B IB valid Lw)|exact (flipped_lawful B IB valid Lw)]. Qed.
Print Assumptions C74_views.

(** Scanning a window is scanning the picture cut out. *)
Theorem C74_window {B : Type} {IB : ImageBuffer B} (valid : B -> Prop) {Srt : Sorter spec_float} W H w h x0 y0 n b fill :
  lawful valid -> valid b -> has_pixels b W H fill -> 0 <= x0 -> 0 <= y0 -> x0 + w <= W -> y0 + h <= H -> 1 <= w <= 2 ^ 31 -> 1 <= h <= 2 ^ 31 ->
  ends_alike (T := spec_float) (let* p := b_prepare (Window b x0 y0 w h) in b_detect_again n p)
    (let* p := prepare_from_greyscale w h (fun x y => fill (x0 + x) (y0 + y)) in detect_again n p).
Proof. exact (any_window valid W H w h x0 y0 n b fill). Qed.
Print Assumptions C74_window.

(** A picture of "rqrr" that is computed when asked for, with a journal of what was written, is scanned. *)
Definition rqrr_journal : journal := Journal 50 46 (fun x y => if rendered 21 (encode 1 EcM 0 rqrr_message) 2 5 3 0 x y then 1 else 0) [].

Example C74_example {Srt : Sorter spec_float} : lawful journal_bytes /\ journal_bytes rqrr_journal
  /\ exists p l p', b_without_preparation rqrr_journal = Ok p /\ b_detect_grids (T := spec_float) p = Ok ([l], p')
       /\ grid_decode (b_ref_grid p' (lg_loc l)) = Ok (mkMeta 1 0 0, [114; 113; 114; 114]).
Proof.
  assert (V : journal_bytes rqrr_journal).
  { repeat split; cbn; try lia; [| |constructor]; destruct (rendered _ _ _ _ _ _ _ _); lia. }
  split; [exact journal_lawful|]. split; [exact V|].
  assert (Sh : has_pixels rqrr_journal 50 46 (fun x y => if rendered 21 (encode 1 EcM 0 rqrr_message) 2 5 3 0 x y then 1 else 0)) by (repeat split; reflexivity).
  pose proof (C74_without journal_bytes 50 46 0 rqrr_journal (rendered 21 (encode 1 EcM 0 rqrr_message) 2 5 3 0) journal_lawful ltac:(lia) ltac:(lia) V Sh) as A.
  destruct C54_example as (p & E & l & p' & Ed & Hd).
  unfold out in *. rewrite E in A. cbn [bind detect_again b_detect_again] in A. rewrite Ed in A.
  destruct (b_without_preparation rqrr_journal) as [q|[]| |]; cbn [bind] in A; try contradiction. destruct (b_detect_grids q) as [[ls q']|[]| |] eqn:Eq; try contradiction. destruct A as (-> & A & _).
  exists q, l, q'. split; [reflexivity|]. split; [exact Eq|]. destruct (A (lg_loc l)) as (_ & _ & D & _). rewrite D. exact Hd.
Qed.

(** A buffer that takes no notice of what is written is not lawful and not as good: a single light pixel stays what it
    was, where it should have been made white. *)
Example C74_unlawful {Srt : Sorter spec_float} : let b := Wall 1 1 (fun _ _ => 200) in has_pixels (IB := WallBuffer) b 1 1 (fun _ _ => 200)
  /\ ~ ends_alike (IB := WallBuffer) (T := spec_float) (let* p := b_prepare (IB := WallBuffer) b in b_detect_again (IB := WallBuffer) 0 p) (let* p := prepare_from_greyscale 1 1 (fun _ _ => 200) in detect_again 0 p).
Proof.
  split; [repeat split; reflexivity|]. intros A.
  destruct (let* p := b_prepare _ in _) as [[ls p]|[]| |] eqn:E in A; [|vm_compute in E; discriminate E|vm_compute in E; discriminate E].
  destruct (let* p := prepare_from_greyscale _ _ _ in _) as [[ls' p']|[]| |] eqn:E' in A; [|vm_compute in E'; discriminate E'|vm_compute in E'; discriminate E'].
  destruct A as (_ & _ & A). vm_compute in E, E'. injection E as <- <-. injection E' as <- <-. vm_compute in A. discriminate A.
Qed.

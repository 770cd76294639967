(** Properties of what decoding answers and of what the library shows: C64, C65.
    Every theorem is followed by its assumptions and by a case meeting its hypotheses. *)
From Coq Require Import SpecFloat String.
From Verif Require Import Base Lib VersionDb ModelGF ModelRS ModelDecode ModelImage ModelGeometry ModelDetect ModelOutput SpecImage
  FormatProofs LayoutProofs EncodeProofs GridProofs Refuted SymbolProofs RawProofs EccProofs EccStream EndToEnd V21Proofs SpecPayload SpecReading ReadingProofs
  FloodProofs RegionProofs HistoryProofs SearchProofs ImageFacts PropImage OutputProofs SpecQR.
From Coq Require Import ZifyBool ZifyNat ZifyN.
Open Scope Z_scope.
Set Bullet Behavior "Strict Subproofs".

(** * C64 *)

(** Any square of modules of the size of a symbol, however it came about, is read as its format
    information and its blocks allow ([reads]); if nothing can be read so, the mirrored square is tried.  The
    answer is that of the first reading that gives data, an error is that of the first reading. *)
Theorem C64_decode g sym v : readable g sym -> g_size g = symbol_size v -> 1 <= v <= 40 -> v <> 21 ->
  exists o o', reads v sym o /\ reads v (mirrored sym) o' /\ decided g v o o'.
Proof. exact (decode_decided g sym v). Qed.
Print Assumptions C64_decode.

(** The format information never says two things. *)
Theorem C64_format_unique size sym e mask e' mask' :
  format_says size sym e mask -> format_says size sym e' mask' -> e = e' /\ mask = mask'.
Proof. exact (format_says_unique size sym e mask e' mask'). Qed.
Print Assumptions C64_format_unique.

(** Where no block is damaged beyond its capacity there is one reading only. *)
Theorem C64_within_capacity v sym e mask data o : 1 <= v <= 40 -> v <> 21 ->
  format_says (symbol_size v) sym e mask ->
  length data = data_capacity v e -> Forall is_byte data ->
  within_capacity v e data (received_codewords v mask sym) ->
  reads v sym o -> o = Data e mask data.
Proof. exact (reads_within_capacity v sym e mask data o). Qed.
Print Assumptions C64_within_capacity.

(** A square too small or too large for any version is refused, and the reason says whether the format
    information could be read. *)
Theorem C64_bad_size g sym : readable g sym -> 9 <= g_size g -> ~ 21 <= g_size g <= 180 ->
  (format_lost (g_size g) sym /\ fails g FormatEcc) \/
  (exists e mask, format_says (g_size g) sym e mask) /\ fails g InvalidVersion.
Proof. exact (bad_size g sym). Qed.
Print Assumptions C64_bad_size.

(** Three errors come before anything is written, two after the writing of a part, and a writing error
    only from a writer that refused. *)
Theorem C64_errors g : total_grid g -> 9 <= g_size g ->
  forall W (wr : W -> list Z -> W * bool) w w' x, grid_decode_to wr g w = (w', Err x) ->
    (In x [FormatEcc; InvalidVersion; DataEcc] /\ w' = w) \/
    In x [DataUnderflow; UnknownDataType] \/
    (x = IoError /\ exists w1 c, wr w1 c = (w', false)).
Proof. exact (error_possible g). Qed.
Print Assumptions C64_errors.

Theorem C64_decode_errors g x : total_grid g -> 9 <= g_size g -> grid_decode g = Err x ->
  In x [FormatEcc; InvalidVersion; DataEcc; DataUnderflow; UnknownDataType; EncodingError].
Proof. exact (decode_errors g x). Qed.
Print Assumptions C64_decode_errors.

(** A symbol, the same with one module wrong, with one corner painted black, a blank square and squares of other sizes. *)
Definition small_symbol : Z -> Z -> bool := encode 1 EcL 3 [Numeric [1; 2]].
Definition painted_symbol : Z -> Z -> bool := fun y x => small_symbol y x || ((13 <=? x) && (9 <=? y)).

Example C64_example :
  grid_decode (grid_of 21 small_symbol) = Ok (mkMeta 1 1 3, [49; 50]) /\
  grid_decode (grid_of 21 (fun y x => xorb (small_symbol y x) ((y =? 20) && (x =? 20)))) = Ok (mkMeta 1 1 3, [49; 50]) /\
  grid_decode (grid_of 21 painted_symbol) = Err DataEcc /\
  grid_decode (grid_of 21 (fun _ _ => false)) = Err FormatEcc /\
  grid_decode (grid_of 20 small_symbol) = Err InvalidVersion /\
  grid_decode (grid_of 181 (fun _ _ => true)) = Err FormatEcc.
Proof. repeat split; vm_compute; reflexivity. Qed.

(** * C65 *)

(** Different errors have different texts. *)
Theorem C65_messages e e' : error_message e = error_message e' -> e = e'.
Proof. exact (message_injective e e'). Qed.
Print Assumptions C65_messages.

(** Every text is the kind of the error with the reason in brackets. *)
Theorem C65_texts e : error_message e = (error_kind e ++ "(" ++ error_reason e ++ ")")%string.
Proof. exact (message_text e). Qed.
Print Assumptions C65_texts.

(** The picture of a grid has a black pixel for every dark module and a white one for every other. *)
Theorem C65_grid_picture g sym : readable g sym -> 0 <= g_size g < 2 ^ 32 ->
  exists c, grid_picture g = Ok c /\ shows c (g_size g) (g_size g) (fun x y => if sym y x then 0 else 255).
Proof. exact (grid_shown g sym). Qed.
Print Assumptions C65_grid_picture.

(** A grid made from that picture is decoded like the grid itself. *)
Theorem C65_grid_again g sym c : readable g sym -> 9 <= g_size g < 2 ^ 32 -> grid_picture g = Ok c ->
  exists g', @simple_from_func deqr_error (cv_w c) (fun x y => nth (Z.to_nat (y * cv_w c + x)) (cv_px c) 255 =? 0) = Ok g' /\
    grid_decode (simple_grid g') = grid_decode g /\
    forall W (wr : W -> list Z -> W * bool) w, grid_decode_to wr (simple_grid g') w = grid_decode_to wr g w.
Proof. exact (grid_again g sym c). Qed.
Print Assumptions C65_grid_again.

Example C65_example :
  grid_picture (grid_of 2 (fun y x => (y =? 0) && (x =? 1))) = Ok (MkCanvas 2 2 [255; 0; 255; 255]) /\
  exists c g', grid_picture (grid_of 21 small_symbol) = Ok c /\
    @simple_from_func deqr_error (cv_w c) (fun x y => nth (Z.to_nat (y * cv_w c + x)) (cv_px c) 255 =? 0) = Ok g' /\
    grid_decode (simple_grid g') = Ok (mkMeta 1 1 3, [49; 50]).
Proof.
  split; [vm_compute; reflexivity|].
  assert (R : readable (grid_of 21 small_symbol) small_symbol) by apply grid_of_readable.
  destruct (C65_grid_picture _ _ R ltac:(cbn; lia)) as (c & E & _).
  destruct (C65_grid_again _ _ c R ltac:(cbn; lia) E) as (g' & E' & D & _).
  exists c, g'. split; [exact E|]. split; [exact E'|]. rewrite D. apply C64_example.
Qed.

(** The picture of a state of a prepared image: white are the pixels that are white in the prepared
    picture, black the dark ones that have not been looked at, and a connected component has one colour; the
    components looked at have eight different colours in turn, by their numbers. *)
Theorem C65_state_picture I0 p : reached64 I0 p -> im_w I0 < 2 ^ 32 -> im_h I0 < 2 ^ 32 ->
  exists c f, state_picture p = Ok c /\ shows c (im_w I0) (im_h I0) (fun x y => f (x, y)) /\
    (forall q, in_image I0 q -> (f q = (255, 255, 255) <-> pix I0 q = 0)) /\
    (forall q, in_image I0 q -> (f q = (0, 0, 0) <-> pix (p_buf p) q = 1)) /\
    (forall q r, iblob I0 q r -> f r = f q) /\
    (forall q r, in_image I0 q -> in_image I0 r -> 2 <= pix (p_buf p) q -> 2 <= pix (p_buf p) r -> (f q = f r <-> pix (p_buf p) q mod 8 = pix (p_buf p) r mod 8)).
Proof. exact (fun R => state_reached I0 p (reached_inv I0 p R)). Qed.
Print Assumptions C65_state_picture.

(** Two dark pixels touching at a corner, before and after the region of one of them is asked for. *)
Example C65_state_example :
  (let* p := prepare_from_bitmap 2 2 (fun x y => x =? y) in
   let* c := state_picture p in
   let* (_, p') := get_region p 0 0 in
   let* c' := state_picture p' in
   Ok (cv_px c, cv_px c')) =
  Ok ([(0, 0, 0); (255, 255, 255); (255, 255, 255); (0, 0, 0)],
      [(255, 255, 0); (255, 255, 255); (255, 255, 255); (0, 0, 0)]).
Proof. vm_compute. reflexivity. Qed.

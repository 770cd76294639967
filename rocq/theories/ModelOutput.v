(** Model of the parts of the library that only show things: the texts of the errors and the two
    pictures written for debugging (feature [img]).  Saving the picture to a file ([save], which the code
    unwraps) is left out: the model ends with the finished picture. *)
From Coq Require Import String.
From Verif Require Import Base ModelDecode ModelImage.
Open Scope Z_scope.

(** /repo/src/lib.rs:321-335 [impl Display for DeQRError]. *)
Definition error_message (e : deqr_error) : string :=
  match e with
  | IoError => "IoError(Could not write to output)"
  | DataUnderflow => "DataUnderflow(Expected more bits to decode)"
  | DataOverflow => "DataOverflow(Expected less bits to decode)"
  | UnknownDataType => "UnknownDataType(DataType not known or not implemented)"
  | DataEcc => "Ecc(Too many errors to correct)"
  | FormatEcc => "Ecc(Version information corrupt)"
  | InvalidVersion => "InvalidVersion(Invalid version or corrupt)"
  | InvalidGridSize => "InvalidGridSize(Invalid version or corrupt)"
  | EncodingError => "Encoding(Not UTF8)"
  end.

(** [image::ImageBuffer]: [new] makes a picture of zeroed pixels, [get_pixel_mut] panics outside the
    picture.  Row-major, as in the [image] crate. *)
Record canvas (A : Type) := MkCanvas { cv_w : Z; cv_h : Z; cv_px : list A }.
Arguments MkCanvas {A}. Arguments cv_w {A}. Arguments cv_h {A}. Arguments cv_px {A}.

Definition canvas_new {A} (zero : A) (w h : Z) : canvas A := MkCanvas w h (repeat zero (Z.to_nat (w * h))).
Definition canvas_put {E A} (c : canvas A) (x y : Z) (a : A) : res E (canvas A) :=
  if (0 <=? x) && (x <? cv_w c) && (0 <=? y) && (y <? cv_h c) then
    let* px := aset (cv_px c) (Z.to_nat (y * cv_w c + x)) a in Ok (MkCanvas (cv_w c) (cv_h c) px)
  else Panic.

(** A cast [as u32] of a [usize]. *)
Definition as_u32 (n : Z) : Z := n mod 2 ^ 32.

(** /repo/src/lib.rs:139-153 [BitGrid::write_grid_to], up to [save]. *)
Definition grid_picture (g : BitGrid) : res deqr_error (canvas Z) :=
  for_each (zrange 0 (g_size g))
    (fun y c =>
       for_each (zrange 0 (g_size g))
         (fun x c =>
            let* b := g_bit g y x in
            canvas_put c (as_u32 x) (as_u32 y) (if b then 0 else 255))
         c)
    (canvas_new 0 (as_u32 (g_size g)) (as_u32 (g_size g))).

(** /repo/src/prepare.rs:408-417 [COLORS]. *)
Definition COLORS : list (Z * Z * Z) :=
  [(255, 0, 0); (0, 255, 0); (0, 0, 255); (255, 255, 0); (255, 0, 255); (0, 255, 255); (128, 128, 128); (128, 0, 128)].

(** /repo/src/prepare.rs:405-432 [PreparedImage::write_state_to], up to [save]. *)
Definition state_picture (p : prepared) : out (canvas (Z * Z * Z)) :=
  for_each (zrange 0 (p_h p))
    (fun y c =>
       for_each (zrange 0 (p_w p))
         (fun x c =>
            let* b := get_pixel (p_buf p) x y in
            let* rgb :=
              if b =? 0 then Ok (255, 255, 255)
              else if b =? 1 then Ok (0, 0, 0)
              else let* b' := get_pixel (p_buf p) x y in
                   let* i := usub b' 2 in
                   aget COLORS (Z.to_nat (i mod 8)) in
            canvas_put c (as_u32 x) (as_u32 y) rgb)
         c)
    (canvas_new (0, 0, 0) (as_u32 (p_w p)) (as_u32 (p_h p))).

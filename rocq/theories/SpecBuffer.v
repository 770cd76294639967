(** What is asked of an image buffer, and what it means that two buffers give the same results. *)
From Verif Require Import Base ModelDecode ModelImage ModelGeometry ModelDetect ModelIdentify ModelOutput ModelBuffer.
Open Scope Z_scope.

(** What is asked of a buffer: its size never changes, a pixel within it can be read and written and is a byte, and
    reading it gives what was written there last.  Nothing is asked of places outside.  [valid] may single
    out some values of the type. *)
Record lawful {B : Type} {IB : ImageBuffer B} (valid : B -> Prop) : Prop := {
  lw_size : forall b, valid b -> 0 <= ib_width b /\ 0 <= ib_height b;
  lw_get : forall b x y, valid b -> 0 <= x < ib_width b -> 0 <= y < ib_height b -> exists c, ib_get b x y = Ok c /\ 0 <= c <= 255;
  lw_set : forall b x y c, valid b -> 0 <= x < ib_width b -> 0 <= y < ib_height b -> 0 <= c <= 255 ->
    exists b', ib_set b x y c = Ok b' /\ valid b' /\ ib_width b' = ib_width b /\ ib_height b' = ib_height b /\ ib_get b' x y = Ok c
      /\ forall x' y', 0 <= x' < ib_width b -> 0 <= y' < ib_height b -> (x', y') <> (x, y) -> ib_get b' x' y' = ib_get b x' y'
}.

(** The same, of an image of the crate [image]; sides and coordinates are numbers of type [u32]. *)
Record lawful_gray {G : Type} {GI : GrayImage G} (valid : G -> Prop) : Prop := {
  lg_size : forall g, valid g -> 0 <= gi_width g < 2 ^ 32 /\ 0 <= gi_height g < 2 ^ 32;
  lg_get : forall g x y, valid g -> 0 <= x < gi_width g -> 0 <= y < gi_height g -> exists c, gi_get g x y = Ok c /\ 0 <= c <= 255;
  lg_put : forall g x y c, valid g -> 0 <= x < gi_width g -> 0 <= y < gi_height g -> 0 <= c <= 255 ->
    exists g', gi_put g x y c = Ok g' /\ valid g' /\ gi_width g' = gi_width g /\ gi_height g' = gi_height g /\ gi_get g' x y = Ok c
      /\ forall x' y', 0 <= x' < gi_width g -> 0 <= y' < gi_height g -> (x', y') <> (x, y) -> gi_get g' x' y' = gi_get g x' y'
}.

(** The buffer has the pixels of the picture [f] of [w] by [h] pixels. *)
Definition has_pixels {B : Type} {IB : ImageBuffer B} (b : B) (w h : Z) (f : Z -> Z -> Z) : Prop :=
  ib_width b = w /\ ib_height b = h /\ forall x y, 0 <= x < w -> 0 <= y < h -> ib_get b x y = Ok (f x y).

(** Two grids that answer every call alike: decoding to a string, to any writer, and the raw data. *)
Definition decode_alike (g g' : BitGrid) : Prop :=
  g_size g = g_size g' /\ (forall W (wr : W -> list Z -> W * bool) s, grid_decode_to wr g s = grid_decode_to wr g' s)
  /\ grid_decode g = grid_decode g' /\ grid_get_raw_data g = grid_get_raw_data g'.

(** Two ends of a scan that nobody can tell apart: both panic, both never end, or both find the same grids in the same
    places and order, every place decodes alike, and the picture written for debugging is the same. *)
Definition ends_alike {B : Type} {IB : ImageBuffer B} {T : Type} {N : Num T}
    (o : out (list (located T) * bprepared B)) (o' : out (list (located T) * prepared)) : Prop :=
  match o, o' with
  | Ok (ls, p), Ok (ls', p') => ls = ls' /\ (forall l, decode_alike (b_ref_grid p l) (ref_grid p' l)) /\ b_state_picture p = state_picture p'
  | Panic, Panic => True
  | Diverge, Diverge => True
  | _, _ => False
  end.

(** [detect_grids] on the library's own buffer, called [n] times more. *)
Fixpoint detect_again {T : Type} {N : Num T} {Srt : Sorter T} (n : nat) (p : prepared) : out (list (located T) * prepared) :=
  match n with
  | O => detect_grids p
  | S n => let* t := detect_grids p in detect_again n (snd t)
  end.

(** * Some buffers that are not the library's own *)

(** A window in another buffer. *)
Record window (B : Type) := Window { wi_in : B; wi_x : Z; wi_y : Z; wi_w : Z; wi_h : Z }.
Arguments Window {B}. Arguments wi_in {B}. Arguments wi_x {B}. Arguments wi_y {B}. Arguments wi_w {B}. Arguments wi_h {B}.

Global Instance WindowBuffer {B : Type} {IB : ImageBuffer B} : ImageBuffer (window B) :=
  MkBuffer (window B) wi_w wi_h (fun b x y => ib_get (wi_in b) (wi_x b + x) (wi_y b + y))
    (fun b x y c => let* i := ib_set (wi_in b) (wi_x b + x) (wi_y b + y) c in Ok (Window i (wi_x b) (wi_y b) (wi_w b) (wi_h b))).

Definition window_fits {B : Type} {IB : ImageBuffer B} (valid : B -> Prop) (b : window B) : Prop :=
  valid (wi_in b) /\ 0 <= wi_x b /\ 0 <= wi_y b /\ 0 <= wi_w b /\ 0 <= wi_h b
  /\ wi_x b + wi_w b <= ib_width (wi_in b) /\ wi_y b + wi_h b <= ib_height (wi_in b).

(** Another buffer, seen with columns for rows. *)
Record flipped (B : Type) := Flipped { fl_in : B }.
Arguments Flipped {B}. Arguments fl_in {B}.

Global Instance FlippedBuffer {B : Type} {IB : ImageBuffer B} : ImageBuffer (flipped B) :=
  MkBuffer (flipped B) (fun b => ib_height (fl_in b)) (fun b => ib_width (fl_in b)) (fun b x y => ib_get (fl_in b) y x)
    (fun b x y c => let* i := ib_set (fl_in b) y x c in Ok (Flipped i)).

(** A picture that is computed, and what was written on it, the latest first. *)
Record journal := Journal { j_w : Z; j_h : Z; j_base : Z -> Z -> Z; j_log : list (Z * Z * Z) }.

Fixpoint j_find (l : list (Z * Z * Z)) (x y d : Z) : Z :=
  match l with
  | [] => d
  | (x', y', c) :: l => if (x =? x') && (y =? y') then c else j_find l x y d
  end.

Global Instance JournalBuffer : ImageBuffer journal :=
  MkBuffer journal j_w j_h (fun b x y => Ok (j_find (j_log b) x y (j_base b x y)))
    (fun b x y c => Ok (Journal (j_w b) (j_h b) (j_base b) ((x, y, c) :: j_log b))).

Definition journal_bytes (b : journal) : Prop :=
  0 <= j_w b /\ 0 <= j_h b /\ (forall x y, 0 <= j_base b x y <= 255) /\ Forall (fun e => 0 <= snd e <= 255) (j_log b).

(** A buffer that takes no notice of what is written: not lawful. *)
Record wall := Wall { wl_w : Z; wl_h : Z; wl_base : Z -> Z -> Z }.

Definition WallBuffer : ImageBuffer wall := MkBuffer wall wl_w wl_h (fun b x y => Ok (wl_base b x y)) (fun b _ _ _ => Ok b).

(** Model of /repo/src/prepare.rs: image buffers, thresholding, flood fill and
    the cache of coloured regions.

    Coordinates are [usize] in the source and non-negative [Z] here; the pixels
    are bytes (0..255 as [Z]).  Arithmetic is that of the debug profile:
    leaving the range of the type is [Panic]. *)
From Verif Require Import Base.

(** None of these functions returns a [Result]. *)
Definition out (A : Type) := res Empty_set A.

(** * Machine integers *)

Definition usize_max : Z := 18446744073709551615.

(** Result of a [usize] operation that overflows upwards. *)
Definition usz (z : Z) : out Z := if z <=? usize_max then Ok z else Panic.

Definition i32_min : Z := -2147483648.
Definition i32_max : Z := 2147483647.

(** [v as i32] for an integer of any width: the low 32 bits, sign extended. *)
Definition as_i32 (z : Z) : Z := (z + 2147483648) mod 4294967296 - 2147483648.

(** [v as usize] for an [i32]: sign extension to 64 bits. *)
Definition as_usize (z : Z) : Z := z mod 18446744073709551616.

(** * Image buffers *)

(** prepare.rs:67-72 [struct BasicImageBuffer].  The trait [ImageBuffer]
    (prepare.rs:34-40) is modelled by this implementation only. *)
Record image := MkImage { im_w : Z; im_h : Z; im_px : list Z }.

(** prepare.rs:83-86 [BasicImageBuffer::get_pixel]. *)
Definition get_pixel (im : image) (x y : Z) : out Z :=
  let i := y * im_w im + x in
  if 0 <=? i then aget (im_px im) (Z.to_nat i) else Panic.

(** prepare.rs:88-91 [BasicImageBuffer::set_pixel]. *)
Definition set_pixel (im : image) (x y v : Z) : out image :=
  let i := y * im_w im + x in
  if 0 <=? i then
    let* px := aset (im_px im) (Z.to_nat i) v in
    Ok (MkImage (im_w im) (im_h im) px)
  else Panic.

(** prepare.rs:94-99 [struct Row]. *)
Record row := MkRow { r_left : Z; r_right : Z; r_y : Z }.

(** prepare.rs:101-109 [enum PixelColor]. *)
Inductive color := White | Black | CCapStone | CAlignment | CTmp1 | Discarded (x : Z).

(** prepare.rs:124-135 [impl From<u8> for PixelColor]. *)
Definition color_of (x : Z) : color :=
  if x =? 0 then White else if x =? 1 then Black else if x =? 2 then CCapStone
  else if x =? 3 then CAlignment else if x =? 4 then CTmp1 else Discarded (x - 5).

(** prepare.rs:137-148 [impl From<PixelColor> for u8]; [x + 5] overflows a byte
    for x > 250. *)
Definition color_byte (c : color) : out Z :=
  match c with
  | White => Ok 0 | Black => Ok 1 | CCapStone => Ok 2 | CAlignment => Ok 3 | CTmp1 => Ok 4
  | Discarded x => if x + 5 <=? 255 then Ok (x + 5) else Panic
  end.

(** The derived [PartialEq] of [PixelColor]. *)
Definition color_eqb (a b : color) : bool :=
  match a, b with
  | White, White | Black, Black | CCapStone, CCapStone | CAlignment, CAlignment | CTmp1, CTmp1 => true
  | Discarded x, Discarded y => x =? y
  | _, _ => false
  end.

Definition is_white (c : color) : bool := color_eqb White c.

(** prepare.rs:111-122 [enum ColoredRegion]. *)
Inductive region :=
| Unclaimed (c : color) (src_x src_y pixel_count : Z)
| RCapStone | RAlignment | RTmp1.

(** * Thresholding *)

(** prepare.rs:194-204: one step of the first inner loop of [prepare]; the state
    is (row_average, avg_v, avg_u). *)
Definition average_step (im : image) (ts y x : Z) (s : list Z * Z * Z) : out (list Z * Z * Z) :=
  let '(ra, avg_v, avg_u) := s in
  let w := im_w im in
  let* r := (let* a := usub w 1 in usub a x) in
  let '(v, u) := if y mod 2 =? 0 then (r, x) else (x, r) in
  let* mv := usz (avg_v * (ts - 1)) in
  let* pv := get_pixel im v y in
  let* avg_v := usz (mv / ts + pv) in
  let* mu := usz (avg_u * (ts - 1)) in
  let* pu := get_pixel im u y in
  let* avg_u := usz (mu / ts + pu) in
  let* cv := aget ra (Z.to_nat v) in
  let* nv := usz (cv + avg_v) in
  let* ra := aset ra (Z.to_nat v) nv in
  let* cu := aget ra (Z.to_nat u) in
  let* nu := usz (cu + avg_u) in
  let* ra := aset ra (Z.to_nat u) nu in
  Ok (ra, avg_v, avg_u).

(** prepare.rs:206-216: one step of the second inner loop of [prepare]. *)
Definition fill_step (ra : list Z) (ts y x : Z) (im : image) : out image :=
  let* p := get_pixel im x y in
  let* a := aget ra (Z.to_nat x) in
  let* m := usz (a * 95) in
  let* d := usz (200 * ts) in
  let* c := color_byte (if p <? m / d then Black else White) in
  set_pixel im x y c.

(** prepare.rs:191-217: the body of the loop over the rows; the state is
    (buffer, avg_v, avg_u).  [row_average.fill(0)] makes the row averages a
    fresh zero vector. *)
Definition prepare_row (ts y : Z) (s : image * Z * Z) : out (image * Z * Z) :=
  let '(im, avg_v, avg_u) := s in
  let w := im_w im in
  let* t := for_each (zrange 0 w) (average_step im ts y) (repeat 0 (Z.to_nat w), avg_v, avg_u) in
  let '(ra, avg_v, avg_u) := t in
  let* im := for_each (zrange 0 w) (fill_step ra ts y) im in
  Ok (im, avg_v, avg_u).

(** The loops of prepare.rs:183-217. *)
Definition threshold (im : image) : out image :=
  let ts := Z.max (im_w im / 8) 1 in
  let* t := for_each (zrange 0 (im_h im)) (prepare_row ts) (im, 0, 0) in
  let '(im, _, _) := t in
  Ok im.

(** * The region cache: crate [lru], [LruCache<u8, ColoredRegion>]

    An association list, most recently used entry first. *)

Definition cache := list (Z * region).

(** prepare.rs:221 and 316: capacity 251. *)
Definition cache_cap : Z := 251.

Fixpoint cache_find (c : cache) (k : Z) : option region :=
  match c with
  | [] => None
  | (k', r) :: t => if k' =? k then Some r else cache_find t k
  end.

Definition cache_remove (c : cache) (k : Z) : cache :=
  filter (fun e => negb (fst e =? k)) c.

(** [LruCache::get]: the entry becomes the most recently used one. *)
Definition cache_get (c : cache) (k : Z) : option (region * cache) :=
  match cache_find c k with
  | Some r => Some (r, (k, r) :: cache_remove c k)
  | None => None
  end.

(** [LruCache::pop_lru]. *)
Definition cache_pop (c : cache) : option ((Z * region) * cache) :=
  match rev c with
  | [] => None
  | e :: t => Some (e, rev t)
  end.

(** [LruCache::put]: replaces the entry of the key, or inserts it (dropping the
    least recently used one at capacity). *)
Definition cache_put (c : cache) (k : Z) (r : region) : cache :=
  match cache_find c k with
  | Some _ => (k, r) :: cache_remove c k
  | None =>
      if Z.of_nat (length c) =? cache_cap
      then (k, r) :: removelast c
      else (k, r) :: c
  end.

(** * Prepared images *)

(** prepare.rs:12-15 [struct PreparedImage]. *)
Record prepared := MkPrepared { p_buf : image; p_cache : cache }.

(** prepare.rs:17-32 [impl Clone for PreparedImage]: [iter] goes from the most to
    the least recently used entry. *)
Definition clone (p : prepared) : prepared :=
  MkPrepared (p_buf p) (fold_left (fun c e => cache_put c (fst e) (snd e)) (p_cache p) []).

(** prepare.rs:182-223 [PreparedImage::prepare]. *)
Definition prepare (im : image) : out prepared :=
  let* im := threshold im in
  Ok (MkPrepared im []).

(** prepare.rs:307-318 [PreparedImage::without_preparation]. *)
Definition without_preparation (im : image) : out prepared :=
  let* _ := for_each (zrange 0 (im_h im)) (fun y _ =>
    for_each (zrange 0 (im_w im)) (fun x _ =>
      let* p := get_pixel im x y in
      assert_ (p <? 2)) tt) tt in
  Ok (MkPrepared im []).

(** The double loop of prepare.rs:511-520 and 536-540: collect [f x y] row by row. *)
Definition collect (w h : Z) (f : Z -> Z -> Z) : list Z :=
  flat_map (fun y => map (fun x => f x y) (zrange 0 w)) (zrange 0 h).

(** prepare.rs:504-524 [prepare_from_bitmap].  [fill] is modelled as a pure
    function.  [checked_mul(..).expect(..)] panics on overflow. *)
Definition prepare_from_bitmap (w h : Z) (fill : Z -> Z -> bool) : out prepared :=
  let* _ := usz (w * h) in
  without_preparation (MkImage w h (collect w h (fun x y => if fill x y then 1 else 0))).

(** prepare.rs:530-544 [prepare_from_greyscale]. *)
Definition prepare_from_greyscale (w h : Z) (fill : Z -> Z -> Z) : out prepared :=
  let* _ := usz (w * h) in
  prepare (MkImage w h (collect w h fill)).

(** prepare.rs:320-328 [width], [height]. *)
Definition p_w (p : prepared) : Z := im_w (p_buf p).
Definition p_h (p : prepared) : Z := im_h (p_buf p).

(** prepare.rs:401-403 [get_pixel_at]. *)
Definition get_pixel_at (p : prepared) (x y : Z) : out color :=
  let* b := get_pixel (p_buf p) x y in Ok (color_of b).

(** /repo/src/identify/mod.rs:8-12 [struct Point]. *)
Record point := MkPoint { px : Z; py : Z }.

(** prepare.rs:395-399 [get_pixel_at_point]: clamped to the image. *)
Definition get_pixel_at_point (p : prepared) (q : point) : out color :=
  let* mx := usub (p_w p) 1 in
  let x := Z.max 0 (Z.min (as_i32 mx) (px q)) in
  let* my := usub (p_h p) 1 in
  let y := Z.max 0 (Z.min (as_i32 my) (py q)) in
  get_pixel_at p (as_usize x) (as_usize y).

(** * Flood fill *)

(** prepare.rs:452-454: the loop moving [left] (fuel: [left] itself). *)
Fixpoint go_left (fuel : nat) (im : image) (from y left : Z) : out Z :=
  match fuel with
  | O => if 0 <? left then Diverge else Ok left
  | S fuel' =>
      if 0 <? left then
        let* p := get_pixel im (left - 1) y in
        if p =? from then go_left fuel' im from y (left - 1) else Ok left
      else Ok left
  end.

(** prepare.rs:455-457: the loop moving [right] (fuel: the width). *)
Fixpoint go_right (fuel : nat) (im : image) (from y right : Z) : out Z :=
  match fuel with
  | O => Diverge
  | S fuel' =>
      let* m := usub (im_w im) 1 in
      if right <? m then
        let* p := get_pixel im (right + 1) y in
        if p =? from then go_right fuel' im from y (right + 1) else Ok right
      else Ok right
  end.

(** prepare.rs:459-462: paint the extent. *)
Definition paint (im : image) (left right y to : Z) : out image :=
  for_each (zrange left (right + 1)) (fun idx im => set_pixel im idx y to) im.

(** prepare.rs:468-479 (and 482-493): seed the row [y'] below or above the
    extent.  The state is (queue, seeded_previous); the end of the [Vec] where
    elements are pushed and popped is the head of the list. *)
Definition seed (im : image) (from left right y' : Z) (queue : list (Z * Z)) : out (list (Z * Z)) :=
  let* t := for_each (zrange left (right + 1)) (fun x s =>
    let '(q, prev) := s in
    let* p := get_pixel im x y' in
    if p =? from then Ok (if prev : bool then q else (x, y') :: q, true)
    else Ok (q, false)) (queue, false) in
  Ok (fst t).

(** prepare.rs:443-495: the loop of [flood_fill].  [update] is [AreaFiller::update]
    (prepare.rs:157-159), the state is (buffer, filler). *)
Fixpoint flood_loop {F} (fuel : nat) (update : row -> F -> out F) (from to : Z)
    (queue : list (Z * Z)) (im : image) (f : F) : out (image * F) :=
  match queue with
  | [] => Ok (im, f)
  | (x, y) :: queue =>
      match fuel with
      | O => Diverge
      | S fuel' =>
          let* p := get_pixel im x y in
          if (p =? to) || negb (p =? from) then flood_loop fuel' update from to queue im f
          else
            let* l := go_left (Z.to_nat x) im from y x in
            let* r := go_right (S (Z.to_nat (im_w im))) im from y x in
            let* im := paint im l r y to in
            let* f := update (MkRow l r y) f in
            let* queue := if 0 <? y then seed im from l r (y - 1) queue else Ok queue in
            let* h1 := usub (im_h im) 1 in
            let* queue := if y <? h1 then seed im from l r (y + 1) queue else Ok queue in
            flood_loop fuel' update from to queue im f
      end
  end.

(** Number of iterations allowed to the loop above. *)
Definition flood_fuel (im : image) : nat := S (S (3 * length (im_px im))).

(** prepare.rs:434-497 [flood_fill]. *)
Definition flood_fill {F} (im : image) (x y from to : Z) (update : row -> F -> out F) (f : F)
    : out (image * F) :=
  let* _ := assert_ (negb (from =? to)) in
  flood_loop (flood_fuel im) update from to [(x, y)] im f.

(** prepare.rs:170-176 [impl AreaFiller for AreaCounter]. *)
Definition count_row (r : row) (n : Z) : out Z :=
  let* d := usub (r_right r) (r_left r) in
  usz (n + (d + 1)).

(** prepare.rs:378-393 [repaint_and_apply]. *)
Definition repaint_and_apply {F} (p : prepared) (x y : Z) (target : color)
    (update : row -> F -> out F) (f : F) : out (prepared * F) :=
  let* src := get_pixel (p_buf p) x y in
  let* tb := color_byte target in
  if (0 =? src) || (tb =? src) then Panic
  else
    let* t := flood_fill (p_buf p) x y src tb update f in
    let '(im, f) := t in
    Ok (MkPrepared im (p_cache p), f).

(** prepare.rs:335-359: the index of a new region.  At capacity the least
    recently used region is dropped and painted black again.  [pop_lru] on a
    full cache cannot return [None] (the [expect]). *)
Definition region_index (p : prepared) : out (Z * prepared) :=
  let n := Z.of_nat (length (p_cache p)) in
  if n =? cache_cap then
    match cache_pop (p_cache p) with
    | None => Panic
    | Some ((c, reg), cache') =>
        match reg with
        | Unclaimed col sx sy _ =>
            let* cb := color_byte col in
            let* t := flood_fill (p_buf p) sx sy cb 1 (fun _ u => Ok u) tt in
            Ok (c, MkPrepared (fst t) cache')
        | _ => Ok (c, MkPrepared (p_buf p) cache')
        end
    end
  else Ok (n mod 256, p).

(** prepare.rs:330-376 [get_region]. *)
Definition get_region (p : prepared) (x y : Z) : out (region * prepared) :=
  let* b := get_pixel (p_buf p) x y in
  match color_of b with
  | Discarded r =>
      match cache_get (p_cache p) r with
      | Some (reg, c) => Ok (reg, MkPrepared (p_buf p) c)
      | None => Panic
      end
  | Black =>
      let* t := region_index p in
      let '(reg_idx, p) := t in
      let next := Discarded reg_idx in
      let* t := repaint_and_apply p x y next count_row 0 in
      let '(p, count) := t in
      let reg := Unclaimed next x y count in
      Ok (reg, MkPrepared (p_buf p) (cache_put (p_cache p) reg_idx reg))
  | CTmp1 => Ok (RTmp1, p)
  | CAlignment => Ok (RAlignment, p)
  | CCapStone => Ok (RCapStone, p)
  | White => Panic
  end.

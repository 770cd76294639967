(** Model of the functions that work on the pixels, for any implementation of the trait [ImageBuffer]
    (/repo/src/prepare.rs:34-40): the definitions of [ModelImage], [ModelDetect], [ModelIdentify] and [ModelOutput]
    that take a buffer, with the operations of the trait in place of those of [BasicImageBuffer].  Each cites
    the same lines; simplifications are stated there.  [Clone] of a buffer gives an equal one. *)
From Verif Require Import Base VersionDb ModelDecode ModelImage ModelGeometry ModelDetect ModelIdentify ModelOutput.
Open Scope Z_scope.

(** prepare.rs:34-40 [trait ImageBuffer]; [set_pixel] returns the changed buffer.  A method may panic. *)
Class ImageBuffer (B : Type) := MkBuffer {
  ib_width : B -> Z;
  ib_height : B -> Z;
  ib_get : B -> Z -> Z -> out Z;
  ib_set : B -> Z -> Z -> Z -> out B
}.

(** prepare.rs:73-91 [impl ImageBuffer for BasicImageBuffer]. *)
Global Instance BasicBuffer : ImageBuffer image := MkBuffer image im_w im_h get_pixel set_pixel.

(** prepare.rs:12-15 [struct PreparedImage]. *)
Record bprepared (B : Type) := MkB { b_buf : B; b_cache : cache }.
Arguments MkB {B}. Arguments b_buf {B}. Arguments b_cache {B}.

Section Buffer.
Context {B : Type} {IB : ImageBuffer B}.
Notation bprepared := (bprepared B).

(** prepare.rs:194-204: one step of the first inner loop of [prepare]; the state
    is (row_average, avg_v, avg_u). *)
Definition b_average_step (im : B) (ts y x : Z) (s : list Z * Z * Z) : out (list Z * Z * Z) :=
  let '(ra, avg_v, avg_u) := s in
  let w := ib_width im in
  let* r := (let* a := usub w 1 in usub a x) in
  let '(v, u) := if y mod 2 =? 0 then (r, x) else (x, r) in
  let* mv := usz (avg_v * (ts - 1)) in
  let* pv := ib_get im v y in
  let* avg_v := usz (mv / ts + pv) in
  let* mu := usz (avg_u * (ts - 1)) in
  let* pu := ib_get im u y in
  let* avg_u := usz (mu / ts + pu) in
  let* cv := aget ra (Z.to_nat v) in
  let* nv := usz (cv + avg_v) in
  let* ra := aset ra (Z.to_nat v) nv in
  let* cu := aget ra (Z.to_nat u) in
  let* nu := usz (cu + avg_u) in
  let* ra := aset ra (Z.to_nat u) nu in
  Ok (ra, avg_v, avg_u).

(** prepare.rs:206-216: one step of the second inner loop of [prepare]. *)
Definition b_fill_step (ra : list Z) (ts y x : Z) (im : B) : out B :=
  let* p := ib_get im x y in
  let* a := aget ra (Z.to_nat x) in
  let* m := usz (a * 95) in
  let* d := usz (200 * ts) in
  let* c := color_byte (if p <? m / d then Black else White) in
  ib_set im x y c.

(** prepare.rs:191-217: the body of the loop over the rows; the state is
    (buffer, avg_v, avg_u).  [row_average.fill(0)] makes the row averages a
    fresh zero vector. *)
Definition b_prepare_row (ts y : Z) (s : B * Z * Z) : out (B * Z * Z) :=
  let '(im, avg_v, avg_u) := s in
  let w := ib_width im in
  let* t := for_each (zrange 0 w) (b_average_step im ts y) (repeat 0 (Z.to_nat w), avg_v, avg_u) in
  let '(ra, avg_v, avg_u) := t in
  let* im := for_each (zrange 0 w) (b_fill_step ra ts y) im in
  Ok (im, avg_v, avg_u).

(** The loops of prepare.rs:183-217. *)
Definition b_threshold (im : B) : out B :=
  let ts := Z.max (ib_width im / 8) 1 in
  let* t := for_each (zrange 0 (ib_height im)) (b_prepare_row ts) (im, 0, 0) in
  let '(im, _, _) := t in
  Ok im.

(** prepare.rs:17-32 [impl Clone for PreparedImage]: [iter] goes from the most to
    the least recently used entry. *)
Definition b_clone (p : bprepared) : bprepared :=
  MkB (b_buf p) (fold_left (fun c e => cache_put c (fst e) (snd e)) (b_cache p) []).

(** prepare.rs:182-223 [PreparedImage::prepare]. *)
Definition b_prepare (im : B) : out bprepared :=
  let* im := b_threshold im in
  Ok (MkB im []).

(** prepare.rs:307-318 [PreparedImage::without_preparation]. *)
Definition b_without_preparation (im : B) : out bprepared :=
  let* _ := for_each (zrange 0 (ib_height im)) (fun y _ =>
    for_each (zrange 0 (ib_width im)) (fun x _ =>
      let* p := ib_get im x y in
      assert_ (p <? 2)) tt) tt in
  Ok (MkB im []).

(** prepare.rs:320-328 [width], [height]. *)
Definition b_p_w (p : bprepared) : Z := ib_width (b_buf p).

Definition b_p_h (p : bprepared) : Z := ib_height (b_buf p).

(** prepare.rs:401-403 [get_pixel_at]. *)
Definition b_get_pixel_at (p : bprepared) (x y : Z) : out color :=
  let* b := ib_get (b_buf p) x y in Ok (color_of b).

(** prepare.rs:395-399 [get_pixel_at_point]: clamped to the image. *)
Definition b_get_pixel_at_point (p : bprepared) (q : point) : out color :=
  let* mx := usub (b_p_w p) 1 in
  let x := Z.max 0 (Z.min (as_i32 mx) (px q)) in
  let* my := usub (b_p_h p) 1 in
  let y := Z.max 0 (Z.min (as_i32 my) (py q)) in
  b_get_pixel_at p (as_usize x) (as_usize y).

(** prepare.rs:452-454: the loop moving [left] (fuel: [left] itself). *)
Fixpoint b_go_left (fuel : nat) (im : B) (from y left : Z) : out Z :=
  match fuel with
  | O => if 0 <? left then Diverge else Ok left
  | S fuel' =>
      if 0 <? left then
        let* p := ib_get im (left - 1) y in
        if p =? from then b_go_left fuel' im from y (left - 1) else Ok left
      else Ok left
  end.

(** prepare.rs:455-457: the loop moving [right] (fuel: the width). *)
Fixpoint b_go_right (fuel : nat) (im : B) (from y right : Z) : out Z :=
  match fuel with
  | O => Diverge
  | S fuel' =>
      let* m := usub (ib_width im) 1 in
      if right <? m then
        let* p := ib_get im (right + 1) y in
        if p =? from then b_go_right fuel' im from y (right + 1) else Ok right
      else Ok right
  end.

(** prepare.rs:459-462: paint the extent. *)
Definition b_paint (im : B) (left right y to : Z) : out B :=
  for_each (zrange left (right + 1)) (fun idx im => ib_set im idx y to) im.

(** prepare.rs:468-479 (and 482-493): seed the row [y'] below or above the
    extent.  The state is (queue, seeded_previous); the end of the [Vec] where
    elements are pushed and popped is the head of the list. *)
Definition b_seed (im : B) (from left right y' : Z) (queue : list (Z * Z)) : out (list (Z * Z)) :=
  let* t := for_each (zrange left (right + 1)) (fun x s =>
    let '(q, prev) := s in
    let* p := ib_get im x y' in
    if p =? from then Ok (if prev : bool then q else (x, y') :: q, true)
    else Ok (q, false)) (queue, false) in
  Ok (fst t).

(** prepare.rs:443-495: the loop of [flood_fill].  [update] is [AreaFiller::update]
    (prepare.rs:157-159), the state is (buffer, filler). *)
Fixpoint b_flood_loop {F} (fuel : nat) (update : row -> F -> out F) (from to : Z)
    (queue : list (Z * Z)) (im : B) (f : F) : out (B * F) :=
  match queue with
  | [] => Ok (im, f)
  | (x, y) :: queue =>
      match fuel with
      | O => Diverge
      | S fuel' =>
          let* p := ib_get im x y in
          if (p =? to) || negb (p =? from) then b_flood_loop fuel' update from to queue im f
          else
            let* l := b_go_left (Z.to_nat x) im from y x in
            let* r := b_go_right (S (Z.to_nat (ib_width im))) im from y x in
            let* im := b_paint im l r y to in
            let* f := update (MkRow l r y) f in
            let* queue := if 0 <? y then b_seed im from l r (y - 1) queue else Ok queue in
            let* h1 := usub (ib_height im) 1 in
            let* queue := if y <? h1 then b_seed im from l r (y + 1) queue else Ok queue in
            b_flood_loop fuel' update from to queue im f
      end
  end.

(** Number of iterations allowed to the loop above. *)
Definition b_flood_fuel (im : B) : nat := S (S (3 * Z.to_nat (ib_width im * ib_height im))).

(** prepare.rs:434-497 [flood_fill]. *)
Definition b_flood_fill {F} (im : B) (x y from to : Z) (update : row -> F -> out F) (f : F)
    : out (B * F) :=
  let* _ := assert_ (negb (from =? to)) in
  b_flood_loop (b_flood_fuel im) update from to [(x, y)] im f.

(** prepare.rs:378-393 [repaint_and_apply]. *)
Definition b_repaint_and_apply {F} (p : bprepared) (x y : Z) (target : color)
    (update : row -> F -> out F) (f : F) : out (bprepared * F) :=
  let* src := ib_get (b_buf p) x y in
  let* tb := color_byte target in
  if (0 =? src) || (tb =? src) then Panic
  else
    let* t := b_flood_fill (b_buf p) x y src tb update f in
    let '(im, f) := t in
    Ok (MkB im (b_cache p), f).

(** prepare.rs:335-359: the index of a new region.  At capacity the least
    recently used region is dropped and painted black again.  [pop_lru] on a
    full cache cannot return [None] (the [expect]). *)
Definition b_region_index (p : bprepared) : out (Z * bprepared) :=
  let n := Z.of_nat (length (b_cache p)) in
  if n =? cache_cap then
    match cache_pop (b_cache p) with
    | None => Panic
    | Some ((c, reg), cache') =>
        match reg with
        | Unclaimed col sx sy _ =>
            let* cb := color_byte col in
            let* t := b_flood_fill (b_buf p) sx sy cb 1 (fun _ u => Ok u) tt in
            Ok (c, MkB (fst t) cache')
        | _ => Ok (c, MkB (b_buf p) cache')
        end
    end
  else Ok (n mod 256, p).

(** prepare.rs:330-376 [get_region]. *)
Definition b_get_region (p : bprepared) (x y : Z) : out (region * bprepared) :=
  let* b := ib_get (b_buf p) x y in
  match color_of b with
  | Discarded r =>
      match cache_get (b_cache p) r with
      | Some (reg, c) => Ok (reg, MkB (b_buf p) c)
      | None => Panic
      end
  | Black =>
      let* t := b_region_index p in
      let '(reg_idx, p) := t in
      let next := Discarded reg_idx in
      let* t := b_repaint_and_apply p x y next count_row 0 in
      let '(p, count) := t in
      let reg := Unclaimed next x y count in
      Ok (reg, MkB (b_buf p) (cache_put (b_cache p) reg_idx reg))
  | CTmp1 => Ok (RTmp1, p)
  | CAlignment => Ok (RAlignment, p)
  | CCapStone => Ok (RCapStone, p)
  | White => Panic
  end.

(** detect.rs:200-231 [is_capstone]. *)
Definition b_is_capstone (p : bprepared) (l : linepos) (y : Z) : out (bool * bprepared) :=
  let* t := b_get_region p (l_right l) y in
  let '(ring_reg, p) := t in
  let* t := b_get_region p (l_stone l) y in
  let '(stone_reg, p) := t in
  let* cl := b_get_pixel_at p (l_left l) y in
  let* cr := b_get_pixel_at p (l_right l) y in
  if negb (color_eqb cl cr) then Ok (false, p)
  else
    match ring_reg, stone_reg with
    | Unclaimed ring_color _ _ ring_count, Unclaimed stone_color _ _ stone_count =>
        let* m := usz (stone_count * 100) in
        if ring_count =? 0 then Panic
        else
          let ratio := m / ring_count in
          Ok (negb (color_eqb ring_color stone_color) && (10 <? ratio) && (ratio <? 70), p)
    | _, _ => Ok (false, p)
    end.

Section Numbers.
Context {T : Type} {N : Num T}.

(** detect.rs:241-267 [create_capstone]. *)
Definition b_create_capstone (p : bprepared) (l : linepos) (y : Z) : out (option (capstone T) * bprepared) :=
  let start := MkPoint (as_i32 (l_right l)) (as_i32 y) in
  let* t := b_repaint_and_apply p (l_right l) y CTmp1 first_update (first_new start) in
  let '(p, f) := t in
  let* a := all_new start (fc_best f) in
  let* t := b_repaint_and_apply p (l_right l) y CCapStone all_update a in
  let '(p, a) := t in
  let* k := all_best a in
  match persp_create k (n_of 7) (n_of 7) with
  | None => Ok (None, p)
  | Some c =>
      let* center := persp_map c (n_ratio 7 2) (n_ratio 7 2) in
      Ok (Some (MkCap k center c), p)
  end.

(** detect.rs:49-58 and 63-74: a reported candidate is examined and, if it is a
    capstone, pushed to the result (kept in reverse order here). *)
Definition b_examine (y : Z) (o : option linepos) (s : bprepared * list (capstone T))
    : out (bprepared * list (capstone T)) :=
  let '(p, caps) := s in
  match o with
  | None => Ok (p, caps)
  | Some l =>
      let* t := b_is_capstone p l y in
      let '(b, p) := t in
      if negb b then Ok (p, caps)
      else
        let* t := b_create_capstone p l y in
        match t with
        | (None, p) => Ok (p, caps)
        | (Some c, p) => Ok (p, c :: caps)
        end
  end.

(** detect.rs:41-75: one row of the search. *)
Definition b_scan_row (y : Z) (s : bprepared * list (capstone T)) : out (bprepared * list (capstone T)) :=
  let '(p, caps) := s in
  let* c0 := b_get_pixel_at p 0 y in
  let* t := for_each (zrange 1 (b_p_w p)) (fun x t =>
    let '(finder, (p, caps)) := t in
    let* c := b_get_pixel_at p x y in
    let* r := advance finder c in
    let '(o, finder) := r in
    let* s := b_examine y o (p, caps) in
    Ok (finder, s)) (scan_new c0, (p, caps)) in
  let '(finder, s) := t in
  let* r := advance finder White in
  b_examine y (fst r) s.

(** detect.rs:35-77 [capstones_from_image]. *)
Definition b_capstones_from_image (p : bprepared) : out (list (capstone T) * bprepared) :=
  let* t := for_each (zrange 0 (b_p_h p)) b_scan_row (p, []) in
  Ok (rev (snd t), fst t).

End Numbers.

(** grid.rs:212-229 [timing_scan]: the number of colour changes along the scan. *)
Definition b_timing_scan (p : bprepared) (p0 p1 : point) : out Z :=
  let* pts := bres_points p0 p1 in
  let* t := for_each pts (fun q s =>
    let '(count, previous) := s in
    let* pixel := b_get_pixel_at_point p q in
    let count := match previous with
                 | Some c => if color_eqb c pixel then count else count + 1
                 | None => count
                 end in
    Ok (count, Some pixel)) (0, None) in
  Ok (fst t).

(** One pass of the loop of grid.rs:258-279.  The state is (image, seed, found);
    once found the remaining passes are skipped (the [return]). *)
Definition b_align_pass (size_estimate : Z) (dir : nat) (s : bprepared * point * bool)
    : out (bprepared * point * bool) :=
  let '(p, seed, found) := s in
  if found : bool then Ok s
  else
    let x := as_usize (px seed) in
    let y := as_usize (py seed) in
    let step (p : bprepared) :=
      let* dx := aget dx_map dir in
      let* dy := aget dy_map dir in
      let* sx := ival (px seed + dx)%iexp in
      let* sy := ival (py seed + dy)%iexp in
      Ok (p, MkPoint sx sy, false) in
    if (x <? b_p_w p) && (y <? b_p_h p) then
      let* c := b_get_pixel_at p x y in
      if is_white c then step p
      else
        let* t := b_get_region p x y in
        match t with
        | (Unclaimed _ _ _ count, p) =>
            if (size_estimate / 2 <=? count) && (count <=? size_estimate * 2)
            then Ok (p, seed, true)
            else step p
        | (_, p) => Ok (p, seed, false)     (* [continue] *)
        end
    else step p.

(** grid.rs:252-289: the spiral; the fuel bounds the number of directions tried. *)
Fixpoint b_align_spiral (fuel : nat) (size_estimate : Z) (dir : nat) (step_size : Z)
    (p : bprepared) (seed : point) : out (option point * bprepared) :=
  if step_size * step_size <? size_estimate * 100 then
    match fuel with
    | O => Diverge
    | S fuel' =>
        let* t := for_each (range 0 (Z.to_nat step_size)) (fun _ => b_align_pass size_estimate dir) (p, seed, false) in
        let '(p, seed, found) := t in
        if found : bool then Ok (Some seed, p)
        else
          let dir := Nat.modulo (dir + 1) 4 in
          let step_size := if Nat.even dir then step_size + 1 else step_size in
          b_align_spiral fuel' size_estimate dir step_size p seed
    end
  else Ok (None, p).

Section Located.
Context {T : Type} {N : Num T}.

(** grid.rs:190-210 [measure_timing_pattern].  [(size as f64 - 15.0).floor() as usize]
    is exact on these small integers and saturates at zero. *)
Definition b_measure_timing_pattern (p : bprepared) (g : ModelIdentify.group T) : out Z :=
  let* t0 := persp_map (cap_c (gr0 g)) (n_ratio 13 2) (n_ratio 1 2) in
  let* t1 := persp_map (cap_c (gr1 g)) (n_ratio 13 2) (n_ratio 13 2) in
  let* t2 := persp_map (cap_c (gr2 g)) (n_ratio 1 2) (n_ratio 13 2) in
  let* hscan := b_timing_scan p t1 t2 in
  let* vscan := b_timing_scan p t1 t0 in
  let scan := Z.max hscan vscan in
  let* _ := assert_ (1 <=? scan) in
  let size := scan + 13 in
  let ver := Z.max 0 (size - 15) / 4 in
  Ok (ver * 4 + 17).

(** grid.rs:231-290 [find_alignment_pattern]. *)
Definition b_find_alignment_pattern (p : bprepared) (seed : point) (cap0 cap2 : capstone T)
    : out (option point * bprepared) :=
  let '(u, v) := persp_unmap (cap_c cap0) seed in
  let* a := persp_map (cap_c cap0) u (n_add v (n_of 1)) in
  let '(u, v) := persp_unmap (cap_c cap2) seed in
  let* c := persp_map (cap_c cap2) (n_add u (n_of 1)) v in
  let* s := ival ((px a - px seed) * - (py c - py seed) + (py a - py seed) * (px c - px seed))%iexp in
  let size_estimate := Z.abs s in
  b_align_spiral (Z.to_nat (2 * Z.sqrt (size_estimate * 100) + 4)) size_estimate 0 1 p seed.

(** grid.rs:439-465 [fitness_cell].  Scores are small [i32] values (at most 9 per
    cell), modelled in [Z]; so are the module coordinates. *)
Definition b_fitness_cell (p : bprepared) (c : perspective T) (x y : Z) : out Z :=
  for_each [3; 5; 7] (fun v score =>
    for_each [3; 5; 7] (fun u score =>
      let* q := persp_map c (n_add (n_of x) (n_ratio u 10)) (n_add (n_of y) (n_ratio v 10)) in
      if negb ((py q <? 0) || (b_p_h p <=? as_usize (py q)) || (px q <? 0) || (b_p_w p <=? as_usize (px q)))
      then
        let* col := b_get_pixel_at_point p q in
        Ok (if is_white col then score - 1 else score + 1)
      else Ok score) score) 0.

(** grid.rs:419-437 [fitness_ring]. *)
Definition b_fitness_ring (p : bprepared) (c : perspective T) (cx cy radius : Z) : out Z :=
  for_each (zrange 0 (radius * 2)) (fun i score =>
    let* a := b_fitness_cell p c (cx - radius + i) (cy - radius) in
    let* b := b_fitness_cell p c (cx - radius) (cy + radius - i) in
    let* d := b_fitness_cell p c (cx + radius) (cy - radius + i) in
    let* e := b_fitness_cell p c (cx + radius - i) (cy + radius) in
    Ok (score + a + b + d + e)) 0.

(** grid.rs:406-417 [fitness_apat]. *)
Definition b_fitness_apat (p : bprepared) (c : perspective T) (cx cy : Z) : out Z :=
  let* a := b_fitness_cell p c cx cy in
  let* b := b_fitness_ring p c cx cy 1 in
  let* d := b_fitness_ring p c cx cy 2 in
  Ok (a - b + d).

(** grid.rs:467-479 [fitness_capstone]. *)
Definition b_fitness_capstone (p : bprepared) (c : perspective T) (x y : Z) : out Z :=
  let* a := b_fitness_cell p c (x + 3) (y + 3) in
  let* b := b_fitness_ring p c (x + 3) (y + 3) 1 in
  let* d := b_fitness_ring p c (x + 3) (y + 3) 2 in
  let* e := b_fitness_ring p c (x + 3) (y + 3) 3 in
  Ok (a + b - d + e).

(** grid.rs:365-404 [fitness_all]. *)
Definition b_fitness_all (p : bprepared) (c : perspective T) (grid_size : Z) : out Z :=
  let* version := version_from_grid_size grid_size in
  let* info := aget VERSION_DATA_BASE (Z.to_nat version) in
  let* score := for_each (zrange 0 (grid_size - 14)) (fun i score =>
    let expect := if Z.odd i then 1 else -1 in
    let* a := b_fitness_cell p c (i + 7) 6 in
    let* b := b_fitness_cell p c 6 (i + 7) in
    Ok (score + a * expect + b * expect)) 0 in
  let* a := b_fitness_capstone p c 0 0 in
  let* b := b_fitness_capstone p c (grid_size - 7) 0 in
  let* d := b_fitness_capstone p c 0 (grid_size - 7) in
  let score := score + a + b + d in
  let n := apat_count (vi_apat info) in
  let* score := for_each (range 1 (n - 1)) (fun i score =>
    let* ai := aget (vi_apat info) i in
    let* a := b_fitness_apat p c 6 ai in
    let* b := b_fitness_apat p c ai 6 in
    Ok (score + a + b)) score in
  for_each (range 1 n) (fun i score =>
    for_each (range 1 n) (fun j score =>
      let* ai := aget (vi_apat info) i in
      let* aj := aget (vi_apat info) j in
      let* a := b_fitness_apat p c ai aj in
      Ok (score + a)) score) score.

(** grid.rs:338-353: one trial; the state is (perspective, best score). *)
Definition b_jiggle_step (p : bprepared) (grid_size : Z) (adj : perspective T) (i : nat)
    (s : perspective T * Z) : out (perspective T * Z) :=
  let '(c, best) := s in
  let j := Nat.div2 i in
  let old := persp_get c j in
  let step := persp_get adj j in
  let new := if Nat.odd i then n_add old step else n_sub old step in
  let c' := persp_set c j new in
  let* test := b_fitness_all p c' grid_size in
  if best <? test then Ok (c', test) else Ok (c, best).

(** grid.rs:317-360 [jiggle_perspective]. *)
Definition b_jiggle_perspective (p : bprepared) (c : perspective T) (grid_size : Z) : out (perspective T) :=
  let* best := b_fitness_all p c grid_size in
  let* t := for_each (range 0 5) (fun _ s =>
    let '(c, best, adj) := s in
    let* t := for_each (range 0 16) (b_jiggle_step p grid_size adj) (c, best) in
    let '(c, best) := t in
    Ok (c, best, persp_scale adj (n_ratio 1 2))) (c, best, persp_scale c (n_ratio 2 100)) in
  Ok (fst (fst t)).

(** grid.rs:144-165 [setup_perspective]. *)
Definition b_setup_perspective (p : bprepared) (g : ModelIdentify.group T) (align : point) (grid_size : Z)
    : out (option (perspective T)) :=
  let* s := usub grid_size 7 in
  match persp_create (Corners (k0 (cap_corners (gr1 g))) (k0 (cap_corners (gr2 g))) align
                              (k0 (cap_corners (gr0 g)))) (n_of s) (n_of s) with
  | None => Ok None
  | Some initial =>
      let* c := b_jiggle_perspective p initial grid_size in
      Ok (Some c)
  end.

(** grid.rs:82-96: the position of the alignment pattern. *)
Definition b_locate_alignment (p : bprepared) (g : ModelIdentify.group T) (hd align : point) : out (option point * bprepared) :=
  let* t := b_find_alignment_pattern p align (gr0 g) (gr2 g) in
  match t with
  | (None, p) => Ok (None, p)
  | (Some align, p) =>
      let* score := ival (- py hd * px align + px hd * py align)%iexp in
      let* t := b_repaint_and_apply p (as_usize (px align)) (as_usize (py align)) CAlignment
                  (leftmost_update hd) (align, score) in
      let '(p, (best, _)) := t in
      Ok (Some best, p)
  end.

(** grid.rs:36-104 [SkewedGridLocation::from_group]. *)
Definition b_from_group (p : bprepared) (g : ModelIdentify.group T) : out (option (ModelIdentify.location T) * bprepared) :=
  let* t := orient_group g in
  let '(g, hd) := t in
  let* grid_size := b_measure_timing_pattern p g in
  let* o := line_intersect (k0 (cap_corners (gr0 g))) (k1 (cap_corners (gr0 g)))
                           (k0 (cap_corners (gr2 g))) (k3 (cap_corners (gr2 g))) in
  match o with
  | None => Ok (None, p)
  | Some align =>
      let* t := (if 21 <? grid_size then b_locate_alignment p g hd align else Ok (Some align, p)) in
      match t with
      | (None, p) => Ok (None, p)
      | (Some align, p) =>
          let* v := version_from_grid_size grid_size in
          if Z.of_nat (length VERSION_DATA_BASE) <=? v then Ok (None, p)
          else
            let* o := b_setup_perspective p g align grid_size in
            match o with
            | None => Ok (None, p)
            | Some c => Ok (Some (MkLoc grid_size c), p)
            end
      end
  end.

Context {Srt : Sorter T}.

(** prepare.rs:278-302: one pair; the state is (used_capstones, groups), groups as
    index triples together with the group itself, in reverse order.  The image is
    only read: [from_group] works on a clone. *)
Definition b_try_pair (p : bprepared) (caps : list (capstone T)) (idx : nat) (pair : nat * nat)
    (s : list nat * list ((nat * nat * nat) * ModelIdentify.group T)) : out (list nat * list ((nat * nat * nat) * ModelIdentify.group T)) :=
  let '(used, groups) := s in
  let '(a, b) := pair in
  if used_in used a || used_in used b then Ok s
  else
    let* ca := aget caps a in
    let* ci := aget caps idx in
    let* cb := aget caps b in
    let g := MkGroup ca ci cb in
    let* t := b_from_group (b_clone p) g in
    match fst t with
    | None => Ok s
    | Some _ => Ok (used ++ [a; idx; b], ((a, idx, b), g) :: groups)
    end.

(** prepare.rs:268-305 [find_groupings]. *)
Definition b_find_groupings_indexed (p : bprepared) (caps : list (capstone T))
    : out (list ((nat * nat * nat) * ModelIdentify.group T)) :=
  let* t := for_each (range 0 (length caps)) (fun idx s =>
    if used_in (fst s) idx then Ok s
    else
      let* pairs := find_and_rank_possible_neighbors caps idx in
      for_each pairs (b_try_pair p caps idx) s) ([], []) in
  Ok (rev (snd t)).

Definition b_find_groupings (p : bprepared) (caps : list (capstone T)) : out (list (ModelIdentify.group T)) :=
  let* l := b_find_groupings_indexed p caps in Ok (map snd l).

(** prepare.rs:229-266 [detect_grids]: the grids and the final image they refer to. *)
Definition b_detect_grids (p : bprepared) : out (list (ModelIdentify.located T) * bprepared) :=
  let* t := b_capstones_from_image p in
  let '(stones, p) := t in
  let* groups := b_find_groupings p stones in
  let* t := for_each groups (fun g s =>
    let '(p, locs) := s in
    let* t := b_from_group p g in
    match t with
    | (None, p) => Ok (p, locs)
    | (Some l, p) => Ok (p, locs ++ [l])
    end) (p, []) in
  let '(p, locs) := t in
  let* grids := for_each locs (fun l acc =>
    let* b := grid_bounds l in
    Ok (acc ++ [MkLocated l b])) [] in
  Ok (grids, p).

(** grid.rs:130-142 [impl BitGrid for RefGridImage]. *)
Definition b_ref_grid (p : bprepared) (l : ModelIdentify.location T) : BitGrid :=
  {| g_size := loc_size l;
     g_bit := fun y x =>
       let* q := lift (persp_map (loc_c l) (n_add (n_of x) (n_ratio 1 2)) (n_add (n_of y) (n_ratio 1 2))) in
       let* c := lift (b_get_pixel_at_point p q) in
       Ok (negb (is_white c)) |}.

End Located.

(** /repo/src/prepare.rs:405-432 [PreparedImage::write_state_to], up to [save]. *)
Definition b_state_picture (p : bprepared) : out (canvas (Z * Z * Z)) :=
  for_each (zrange 0 (b_p_h p))
    (fun y c =>
       for_each (zrange 0 (b_p_w p))
         (fun x c =>
            let* b := ib_get (b_buf p) x y in
            let* rgb :=
              if b =? 0 then Ok (255, 255, 255)
              else if b =? 1 then Ok (0, 0, 0)
              else let* b' := ib_get (b_buf p) x y in
                   let* i := usub b' 2 in
                   aget COLORS (Z.to_nat (i mod 8)) in
            canvas_put c (as_u32 x) (as_u32 y) rgb)
         c)
    (canvas_new (0, 0, 0) (as_u32 (b_p_w p)) (as_u32 (b_p_h p))).

End Buffer.

(** /repo/src/prepare.rs:42-45: what the library uses of an image of the crate [image] (feature [img]) whose pixels are
    [Luma<u8>]: [width], [height], [get_pixel], [put_pixel], with coordinates of type [u32]. *)
Class GrayImage (G : Type) := MkGray {
  gi_width : G -> Z;
  gi_height : G -> Z;
  gi_get : G -> Z -> Z -> out Z;
  gi_put : G -> Z -> Z -> Z -> out G
}.

(** prepare.rs:42-63 [impl ImageBuffer for T]: coordinates are cut to 32 bits.  (Not a global instance, so that it is
    always named.) *)
Definition OfGray {G : Type} (GI : GrayImage G) : ImageBuffer G :=
  MkBuffer G gi_width gi_height
    (fun g x y => gi_get g (as_u32 x) (as_u32 y))
    (fun g x y val => gi_put g (as_u32 x) (as_u32 y) val).

(** prepare.rs:182 [PreparedImage::prepare] (or 307-318 [without_preparation]) and then 229-266 [detect_grids], called
    [n] times more on the same prepared image. *)
Section Scan.
Context {B : Type} {IB : ImageBuffer B} {T : Type} {N : Num T} {Srt : Sorter T}.

Fixpoint b_detect_again (n : nat) (p : bprepared B) : out (list (ModelIdentify.located T) * bprepared B) :=
  match n with
  | O => b_detect_grids p
  | S n => let* t := b_detect_grids p in b_detect_again n (snd t)
  end.
End Scan.

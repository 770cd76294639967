(** Model of /repo/src/detect.rs: the search for finder patterns ("capstones"). *)
From Verif Require Import Base ModelImage ModelGeometry.

(** * The line scanner *)

(** detect.rs:79-84 [struct LinePosition]. *)
Record linepos := MkLine { l_left : Z; l_stone : Z; l_right : Z }.

(** detect.rs:104-111 [struct LineScanner]; the five-element look-behind buffer
    is a list. *)
Record scanner := MkScanner {
  s_buf : list Z; s_last : color; s_run : Z; s_changes : Z; s_pos : Z }.

(** detect.rs:114-124 [LineScanner::new]. *)
Definition scan_new (c : color) : scanner := MkScanner [0; 0; 0; 0; 0] c 1 0 0.

(** detect.rs:159-187 [test_for_capstone].  The loop leaves at the first length
    out of tolerance. *)
Fixpoint check_runs (avg err : Z) (l : list (Z * Z)) : out bool :=
  match l with
  | [] => Ok true
  | (check, b) :: t =>
      let* lo := usub (check * avg) err in
      if (b <? lo) || (check * avg + err <? b) then Ok false else check_runs avg err t
  end.

Definition test_for_capstone (s : scanner) : out bool :=
  if is_white (s_last s) && (5 <=? s_changes s) then
    let* b0 := aget (s_buf s) 0 in
    let* b1 := aget (s_buf s) 1 in
    let* b3 := aget (s_buf s) 3 in
    let* b4 := aget (s_buf s) 4 in
    let avg := (b0 + b1 + b3 + b4) / 4 in
    let err := avg * 3 / 4 in
    check_runs avg err (combine [1; 1; 3; 1; 1] (s_buf s))
  else Ok false.

Definition list_sum (l : list Z) : Z := fold_right Z.add 0 l.

(** detect.rs:126-157 [advance].  Counters are bounded by the length of the line, so
    the additions cannot leave [usize] and are modelled without a check. *)
Definition advance (s : scanner) (c : color) : out (option linepos * scanner) :=
  let pos := s_pos s + 1 in
  if color_eqb (s_last s) c then
    Ok (None, MkScanner (s_buf s) (s_last s) (s_run s + 1) (s_changes s) pos)
  else
    let buf := tl (s_buf s) ++ [s_run s] in
    let s' := MkScanner buf c 1 (s_changes s + 1) pos in
    let* t := test_for_capstone s' in
    if t then
      let* l := usub pos (list_sum buf) in
      let* stone := usub pos (list_sum (skipn 2 buf)) in
      let* b4 := aget buf 4 in
      let* r := usub pos b4 in
      Ok (Some (MkLine l stone r), s')
    else Ok (None, s').

(** * Claiming a finder pattern *)

(** detect.rs:200-231 [is_capstone]. *)
Definition is_capstone (p : prepared) (l : linepos) (y : Z) : out (bool * prepared) :=
  let* t := get_region p (l_right l) y in
  let '(ring_reg, p) := t in
  let* t := get_region p (l_stone l) y in
  let '(stone_reg, p) := t in
  let* cl := get_pixel_at p (l_left l) y in
  let* cr := get_pixel_at p (l_right l) y in
  if negb (color_eqb cl cr) then Ok (false, p)
  else
    match ring_reg, stone_reg with
    | Unclaimed ring_color _ _ ring_count, Unclaimed stone_color _ _ stone_count =>
        let* m := usz (stone_count * 100) in
        if ring_count =? 0 then Panic
        else
          let ratio := m / ring_count in
          Ok (negb (color_eqb ring_color stone_color) && (10 <? ratio) && (ratio <? 70), p)
    | _, _ => Ok (false, p)
    end.

(** detect.rs:273-278 [struct FirstCornerFinder]. *)
Record first_corner := MkFirst { fc_initial : point; fc_best : point; fc_score : Z }.

(** detect.rs:281-287 [FirstCornerFinder::new]. *)
Definition first_new (initial : point) : first_corner := MkFirst initial (MkPoint 0 0) (-1).

(** detect.rs:295-319 [FirstCornerFinder::update]. *)
Definition first_update (r : row) (f : first_corner) : out first_corner :=
  let* dy := ival (as_i32 (r_y r) - py (fc_initial f))%iexp in
  let* l_dx := ival (as_i32 (r_left r) - px (fc_initial f))%iexp in
  let* r_dx := ival (as_i32 (r_right r) - px (fc_initial f))%iexp in
  let* l_dist := ival (l_dx * l_dx + dy * dy)%iexp in
  let* r_dist := ival (r_dx * r_dx + dy * dy)%iexp in
  let f := if fc_score f <? l_dist
           then MkFirst (fc_initial f) (MkPoint (as_i32 (r_left r)) (as_i32 (r_y r))) l_dist else f in
  let f := if fc_score f <? r_dist
           then MkFirst (fc_initial f) (MkPoint (as_i32 (r_right r)) (as_i32 (r_y r))) r_dist else f in
  Ok f.

(** detect.rs:329-334 [struct AllCornerFinder]: the four best points with their
    scores (the arrays [best] and [scores], zipped). *)
Record all_corners := MkAll { ac_baseline : point; ac_best : list (point * Z) }.

(** The four scores of a point (detect.rs:343-344, 349-354 and 365-371). *)
Definition corner_scores (baseline : point) (x y : Z) : out (list Z) :=
  let* par := ival (x * px baseline + y * py baseline)%iexp in
  let* ort := ival (- x * py baseline + y * px baseline)%iexp in
  let* npar := ival (- par)%iexp in
  let* nort := ival (- ort)%iexp in
  Ok [par; ort; npar; nort].

(** detect.rs:337-356 [AllCornerFinder::new]. *)
Definition all_new (initial corner : point) : out all_corners :=
  let* bx := ival (px corner - px initial)%iexp in
  let* by_ := ival (py corner - py initial)%iexp in
  let baseline := MkPoint bx by_ in
  let* s := corner_scores baseline (px initial) (py initial) in
  Ok (MkAll baseline (map (fun z => (initial, z)) s)).

(** detect.rs:373-389: one entry of the loop body, first the left end of the row,
    then the right end. *)
Definition better (l r : point) (lrs : Z * Z) (b : point * Z) : point * Z :=
  let b := if snd b <? fst lrs then (l, fst lrs) else b in
  if snd b <? snd lrs then (r, snd lrs) else b.

(** detect.rs:364-390 [AllCornerFinder::update]. *)
Definition all_update (r : row) (f : all_corners) : out all_corners :=
  let xl := as_i32 (r_left r) in
  let xr := as_i32 (r_right r) in
  let y := as_i32 (r_y r) in
  let* ls := corner_scores (ac_baseline f) xl y in
  let* rs := corner_scores (ac_baseline f) xr y in
  Ok (MkAll (ac_baseline f)
       (map (fun t => better (MkPoint xl y) (MkPoint xr y) (fst t) (snd t))
            (combine (combine ls rs) (ac_best f)))).

(** [AllCornerFinder::best] (detect.rs:358-360). *)
Definition all_best (f : all_corners) : out corners :=
  match ac_best f with
  | [a; b; c; d] => Ok (Corners (fst a) (fst b) (fst c) (fst d))
  | _ => Panic
  end.

(** detect.rs:16-25 [struct CapStone]. *)
Record capstone (T : Type) := MkCap { cap_corners : corners; cap_center : point; cap_c : perspective T }.
Arguments MkCap {T}.
Arguments cap_corners {T}. Arguments cap_center {T}. Arguments cap_c {T}.

Section Numbers.
Context {T : Type} {N : Num T}.

(** detect.rs:241-267 [create_capstone]. *)
Definition create_capstone (p : prepared) (l : linepos) (y : Z) : out (option (capstone T) * prepared) :=
  let start := MkPoint (as_i32 (l_right l)) (as_i32 y) in
  let* t := repaint_and_apply p (l_right l) y CTmp1 first_update (first_new start) in
  let '(p, f) := t in
  let* a := all_new start (fc_best f) in
  let* t := repaint_and_apply p (l_right l) y CCapStone all_update a in
  let '(p, a) := t in
  let* k := all_best a in
  match persp_create k (n_of 7) (n_of 7) with
  | None => Ok (None, p)
  | Some c =>
      let* center := persp_map c (n_ratio 7 2) (n_ratio 7 2) in
      Ok (Some (MkCap k center c), p)
  end.

(** detect.rs:49-58 and 63-74: a reported candidate is examined and, if it is a
    capstone, pushed to the result (kept in reverse order here). *)
Definition examine (y : Z) (o : option linepos) (s : prepared * list (capstone T))
    : out (prepared * list (capstone T)) :=
  let '(p, caps) := s in
  match o with
  | None => Ok (p, caps)
  | Some l =>
      let* t := is_capstone p l y in
      let '(b, p) := t in
      if negb b then Ok (p, caps)
      else
        let* t := create_capstone p l y in
        match t with
        | (None, p) => Ok (p, caps)
        | (Some c, p) => Ok (p, c :: caps)
        end
  end.

(** detect.rs:41-75: one row of the search. *)
Definition scan_row (y : Z) (s : prepared * list (capstone T)) : out (prepared * list (capstone T)) :=
  let '(p, caps) := s in
  let* c0 := get_pixel_at p 0 y in
  let* t := for_each (zrange 1 (p_w p)) (fun x t =>
    let '(finder, (p, caps)) := t in
    let* c := get_pixel_at p x y in
    let* r := advance finder c in
    let '(o, finder) := r in
    let* s := examine y o (p, caps) in
    Ok (finder, s)) (scan_new c0, (p, caps)) in
  let '(finder, s) := t in
  let* r := advance finder White in
  examine y (fst r) s.

(** detect.rs:35-77 [capstones_from_image]. *)
Definition capstones_from_image (p : prepared) : out (list (capstone T) * prepared) :=
  let* t := for_each (zrange 0 (p_h p)) scan_row (p, []) in
  Ok (rev (snd t), fst t).

End Numbers.

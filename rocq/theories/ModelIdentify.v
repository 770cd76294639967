(** Model of /repo/src/identify/ and of [detect_grids], [find_groupings] in
    /repo/src/prepare.rs: from finder patterns to located grids. *)
From Coq Require Import Permutation Sorted.
From Verif Require Import Base VersionDb ModelDecode ModelImage ModelGeometry ModelDetect.

(** * grid.rs: timing patterns and alignment pattern *)

(** grid.rs:212-229 [timing_scan]: the number of colour changes along the scan. *)
Definition timing_scan (p : prepared) (p0 p1 : point) : out Z :=
  let* pts := bres_points p0 p1 in
  let* t := for_each pts (fun q s =>
    let '(count, previous) := s in
    let* pixel := get_pixel_at_point p q in
    let count := match previous with
                 | Some c => if color_eqb c pixel then count else count + 1
                 | None => count
                 end in
    Ok (count, Some pixel)) (0, None) in
  Ok (fst t).

(** grid.rs:116-118 [version_from_grid_size]. *)
Definition version_from_grid_size (grid_size : Z) : out Z :=
  let* d := usub grid_size 17 in Ok (d / 4).

(** grid.rs:292-315 [LeftMostFinder]: state (best, score). *)
Definition leftmost_update (line_p : point) (r : row) (s : point * Z) : out (point * Z) :=
  let* left_d := ival (- py line_p * as_i32 (r_left r) + px line_p * as_i32 (r_y r))%iexp in
  let* right_d := ival (- py line_p * as_i32 (r_right r) + px line_p * as_i32 (r_y r))%iexp in
  let s := if left_d <? snd s then (MkPoint (as_i32 (r_left r)) (as_i32 (r_y r)), left_d) else s in
  let s := if right_d <? snd s then (MkPoint (as_i32 (r_right r)) (as_i32 (r_y r)), right_d) else s in
  Ok s.

(** grid.rs:256-257 [DX_MAP], [DY_MAP]. *)
Definition dx_map : list Z := [1; 0; -1; 0].
Definition dy_map : list Z := [0; -1; 0; 1].

(** One pass of the loop of grid.rs:258-279.  The state is (image, seed, found);
    once found the remaining passes are skipped (the [return]). *)
Definition align_pass (size_estimate : Z) (dir : nat) (s : prepared * point * bool)
    : out (prepared * point * bool) :=
  let '(p, seed, found) := s in
  if found : bool then Ok s
  else
    let x := as_usize (px seed) in
    let y := as_usize (py seed) in
    let step (p : prepared) :=
      let* dx := aget dx_map dir in
      let* dy := aget dy_map dir in
      let* sx := ival (px seed + dx)%iexp in
      let* sy := ival (py seed + dy)%iexp in
      Ok (p, MkPoint sx sy, false) in
    if (x <? p_w p) && (y <? p_h p) then
      let* c := get_pixel_at p x y in
      if is_white c then step p
      else
        let* t := get_region p x y in
        match t with
        | (Unclaimed _ _ _ count, p) =>
            if (size_estimate / 2 <=? count) && (count <=? size_estimate * 2)
            then Ok (p, seed, true)
            else step p
        | (_, p) => Ok (p, seed, false)     (* [continue] *)
        end
    else step p.

(** grid.rs:252-289: the spiral; the fuel bounds the number of directions tried. *)
Fixpoint align_spiral (fuel : nat) (size_estimate : Z) (dir : nat) (step_size : Z)
    (p : prepared) (seed : point) : out (option point * prepared) :=
  if step_size * step_size <? size_estimate * 100 then
    match fuel with
    | O => Diverge
    | S fuel' =>
        let* t := for_each (range 0 (Z.to_nat step_size)) (fun _ => align_pass size_estimate dir) (p, seed, false) in
        let '(p, seed, found) := t in
        if found : bool then Ok (Some seed, p)
        else
          let dir := Nat.modulo (dir + 1) 4 in
          let step_size := if Nat.even dir then step_size + 1 else step_size in
          align_spiral fuel' size_estimate dir step_size p seed
    end
  else Ok (None, p).

Section Numbers.
Context {T : Type} {N : Num T}.

(** match_capstones.rs:4 [struct CapStoneGroup]. *)
Record group := MkGroup { gr0 : capstone T; gr1 : capstone T; gr2 : capstone T }.

(** grid.rs:17-21 [struct SkewedGridLocation]. *)
Record location := MkLoc { loc_size : Z; loc_c : perspective T }.

(** grid.rs:190-210 [measure_timing_pattern].  [(size as f64 - 15.0).floor() as usize]
    is exact on these small integers and saturates at zero. *)
Definition measure_timing_pattern (p : prepared) (g : group) : out Z :=
  let* t0 := persp_map (cap_c (gr0 g)) (n_ratio 13 2) (n_ratio 1 2) in
  let* t1 := persp_map (cap_c (gr1 g)) (n_ratio 13 2) (n_ratio 13 2) in
  let* t2 := persp_map (cap_c (gr2 g)) (n_ratio 1 2) (n_ratio 13 2) in
  let* hscan := timing_scan p t1 t2 in
  let* vscan := timing_scan p t1 t0 in
  let scan := Z.max hscan vscan in
  let* _ := assert_ (1 <=? scan) in
  let size := scan + 13 in
  let ver := Z.max 0 (size - 15) / 4 in
  Ok (ver * 4 + 17).

(** grid.rs:167-180 [rotate_capstone].  [min_by_key] returns the first minimum. *)
Fixpoint argmin (best_idx : nat) (best : Z) (idx : nat) (l : list Z) : nat :=
  match l with
  | [] => best_idx
  | a :: t => if a <? best then argmin idx a (S idx) t else argmin best_idx best (S idx) t
  end.

Definition rotate_corners (k : corners) (i : nat) : corners :=
  match i with
  | O => k
  | 1%nat => Corners (k1 k) (k2 k) (k3 k) (k0 k)
  | 2%nat => Corners (k2 k) (k3 k) (k0 k) (k1 k)
  | _ => Corners (k3 k) (k0 k) (k1 k) (k2 k)
  end.

Definition corner_key (h0 hd a : point) : out Z :=
  ival ((px a - px h0) * (- (py hd)) + (py a - py h0) * px hd)%iexp.

Definition rotate_capstone (cap : capstone T) (h0 hd : point) : out (capstone T) :=
  let k := cap_corners cap in
  let* a := corner_key h0 hd (k0 k) in
  let* b := corner_key h0 hd (k1 k) in
  let* c := corner_key h0 hd (k2 k) in
  let* d := corner_key h0 hd (k3 k) in
  let k' := rotate_corners k (argmin 0 a 1 [b; c; d]) in
  match persp_create k' (n_of 7) (n_of 7) with
  | None => Panic
  | Some c => Ok (MkCap k' (cap_center cap) c)
  end.

(** grid.rs:231-290 [find_alignment_pattern]. *)
Definition find_alignment_pattern (p : prepared) (seed : point) (cap0 cap2 : capstone T)
    : out (option point * prepared) :=
  let '(u, v) := persp_unmap (cap_c cap0) seed in
  let* a := persp_map (cap_c cap0) u (n_add v (n_of 1)) in
  let '(u, v) := persp_unmap (cap_c cap2) seed in
  let* c := persp_map (cap_c cap2) (n_add u (n_of 1)) v in
  let* s := ival ((px a - px seed) * - (py c - py seed) + (py a - py seed) * (px c - px seed))%iexp in
  let size_estimate := Z.abs s in
  align_spiral (Z.to_nat (2 * Z.sqrt (size_estimate * 100) + 4)) size_estimate 0 1 p seed.

(** grid.rs:439-465 [fitness_cell].  Scores are small [i32] values (at most 9 per
    cell), modelled in [Z]; so are the module coordinates. *)
Definition fitness_cell (p : prepared) (c : perspective T) (x y : Z) : out Z :=
  for_each [3; 5; 7] (fun v score =>
    for_each [3; 5; 7] (fun u score =>
      let* q := persp_map c (n_add (n_of x) (n_ratio u 10)) (n_add (n_of y) (n_ratio v 10)) in
      if negb ((py q <? 0) || (p_h p <=? as_usize (py q)) || (px q <? 0) || (p_w p <=? as_usize (px q)))
      then
        let* col := get_pixel_at_point p q in
        Ok (if is_white col then score - 1 else score + 1)
      else Ok score) score) 0.

(** grid.rs:419-437 [fitness_ring]. *)
Definition fitness_ring (p : prepared) (c : perspective T) (cx cy radius : Z) : out Z :=
  for_each (zrange 0 (radius * 2)) (fun i score =>
    let* a := fitness_cell p c (cx - radius + i) (cy - radius) in
    let* b := fitness_cell p c (cx - radius) (cy + radius - i) in
    let* d := fitness_cell p c (cx + radius) (cy - radius + i) in
    let* e := fitness_cell p c (cx + radius - i) (cy + radius) in
    Ok (score + a + b + d + e)) 0.

(** grid.rs:406-417 [fitness_apat]. *)
Definition fitness_apat (p : prepared) (c : perspective T) (cx cy : Z) : out Z :=
  let* a := fitness_cell p c cx cy in
  let* b := fitness_ring p c cx cy 1 in
  let* d := fitness_ring p c cx cy 2 in
  Ok (a - b + d).

(** grid.rs:467-479 [fitness_capstone]. *)
Definition fitness_capstone (p : prepared) (c : perspective T) (x y : Z) : out Z :=
  let* a := fitness_cell p c (x + 3) (y + 3) in
  let* b := fitness_ring p c (x + 3) (y + 3) 1 in
  let* d := fitness_ring p c (x + 3) (y + 3) 2 in
  let* e := fitness_ring p c (x + 3) (y + 3) 3 in
  Ok (a + b - d + e).

(** grid.rs:388-391: the number of leading non-zero alignment coordinates. *)
Fixpoint apat_count (l : list Z) : nat :=
  match l with
  | [] => O
  | a :: t => if a =? 0 then O else S (apat_count t)
  end.

(** grid.rs:365-404 [fitness_all]. *)
Definition fitness_all (p : prepared) (c : perspective T) (grid_size : Z) : out Z :=
  let* version := version_from_grid_size grid_size in
  let* info := aget VERSION_DATA_BASE (Z.to_nat version) in
  let* score := for_each (zrange 0 (grid_size - 14)) (fun i score =>
    let expect := if Z.odd i then 1 else -1 in
    let* a := fitness_cell p c (i + 7) 6 in
    let* b := fitness_cell p c 6 (i + 7) in
    Ok (score + a * expect + b * expect)) 0 in
  let* a := fitness_capstone p c 0 0 in
  let* b := fitness_capstone p c (grid_size - 7) 0 in
  let* d := fitness_capstone p c 0 (grid_size - 7) in
  let score := score + a + b + d in
  let n := apat_count (vi_apat info) in
  let* score := for_each (range 1 (n - 1)) (fun i score =>
    let* ai := aget (vi_apat info) i in
    let* a := fitness_apat p c 6 ai in
    let* b := fitness_apat p c ai 6 in
    Ok (score + a + b)) score in
  for_each (range 1 n) (fun i score =>
    for_each (range 1 n) (fun j score =>
      let* ai := aget (vi_apat info) i in
      let* aj := aget (vi_apat info) j in
      let* a := fitness_apat p c ai aj in
      Ok (score + a)) score) score.

(** [perspective.0[j]] and its assignment. *)
Definition persp_get (c : perspective T) (j : nat) : T :=
  match j with
  | 0%nat => c0 c | 1%nat => c1 c | 2%nat => c2 c | 3%nat => c3 c
  | 4%nat => c4 c | 5%nat => c5 c | 6%nat => c6 c | _ => c7 c
  end.

Definition persp_set (c : perspective T) (j : nat) (t : T) : perspective T :=
  match c, j with
  | Persp _ b d e f g h i, 0%nat => Persp t b d e f g h i
  | Persp a _ d e f g h i, 1%nat => Persp a t d e f g h i
  | Persp a b _ e f g h i, 2%nat => Persp a b t e f g h i
  | Persp a b d _ f g h i, 3%nat => Persp a b d t f g h i
  | Persp a b d e _ g h i, 4%nat => Persp a b d e t g h i
  | Persp a b d e f _ h i, 5%nat => Persp a b d e f t h i
  | Persp a b d e f g _ i, 6%nat => Persp a b d e f g t i
  | Persp a b d e f g h _, _ => Persp a b d e f g h t
  end.

Definition persp_scale (c : perspective T) (t : T) : perspective T :=
  Persp (n_mul (c0 c) t) (n_mul (c1 c) t) (n_mul (c2 c) t) (n_mul (c3 c) t)
        (n_mul (c4 c) t) (n_mul (c5 c) t) (n_mul (c6 c) t) (n_mul (c7 c) t).

(** grid.rs:338-353: one trial; the state is (perspective, best score). *)
Definition jiggle_step (p : prepared) (grid_size : Z) (adj : perspective T) (i : nat)
    (s : perspective T * Z) : out (perspective T * Z) :=
  let '(c, best) := s in
  let j := Nat.div2 i in
  let old := persp_get c j in
  let step := persp_get adj j in
  let new := if Nat.odd i then n_add old step else n_sub old step in
  let c' := persp_set c j new in
  let* test := fitness_all p c' grid_size in
  if best <? test then Ok (c', test) else Ok (c, best).

(** grid.rs:317-360 [jiggle_perspective]. *)
Definition jiggle_perspective (p : prepared) (c : perspective T) (grid_size : Z) : out (perspective T) :=
  let* best := fitness_all p c grid_size in
  let* t := for_each (range 0 5) (fun _ s =>
    let '(c, best, adj) := s in
    let* t := for_each (range 0 16) (jiggle_step p grid_size adj) (c, best) in
    let '(c, best) := t in
    Ok (c, best, persp_scale adj (n_ratio 1 2))) (c, best, persp_scale c (n_ratio 2 100)) in
  Ok (fst (fst t)).

(** grid.rs:144-165 [setup_perspective]. *)
Definition setup_perspective (p : prepared) (g : group) (align : point) (grid_size : Z)
    : out (option (perspective T)) :=
  let* s := usub grid_size 7 in
  match persp_create (Corners (k0 (cap_corners (gr1 g))) (k0 (cap_corners (gr2 g))) align
                              (k0 (cap_corners (gr0 g)))) (n_of s) (n_of s) with
  | None => Ok None
  | Some initial =>
      let* c := jiggle_perspective p initial grid_size in
      Ok (Some c)
  end.

(** grid.rs:43-66: order the group clockwise and rotate the finder patterns;
    returns the new group and the direction of the hypotenuse. *)
Definition orient_group (g : group) : out (group * point) :=
  let h0 := cap_center (gr0 g) in
  let* hx := ival (px (cap_center (gr2 g)) - px (cap_center (gr0 g)))%iexp in
  let* hy := ival (py (cap_center (gr2 g)) - py (cap_center (gr0 g)))%iexp in
  let* side := ival ((px (cap_center (gr1 g)) - px h0) * - hy + (py (cap_center (gr1 g)) - py h0) * hx)%iexp in
  let* t := (if 0 <? side then
               let* hx := ival (- hx)%iexp in
               let* hy := ival (- hy)%iexp in
               Ok (MkGroup (gr2 g) (gr1 g) (gr0 g), MkPoint hx hy)
             else Ok (g, MkPoint hx hy)) in
  let '(g, hd) := t in
  let* a := rotate_capstone (gr0 g) h0 hd in
  let* b := rotate_capstone (gr1 g) h0 hd in
  let* c := rotate_capstone (gr2 g) h0 hd in
  Ok (MkGroup a b c, hd).

(** grid.rs:82-96: the position of the alignment pattern. *)
Definition locate_alignment (p : prepared) (g : group) (hd align : point) : out (option point * prepared) :=
  let* t := find_alignment_pattern p align (gr0 g) (gr2 g) in
  match t with
  | (None, p) => Ok (None, p)
  | (Some align, p) =>
      let* score := ival (- py hd * px align + px hd * py align)%iexp in
      let* t := repaint_and_apply p (as_usize (px align)) (as_usize (py align)) CAlignment
                  (leftmost_update hd) (align, score) in
      let '(p, (best, _)) := t in
      Ok (Some best, p)
  end.

(** grid.rs:36-104 [SkewedGridLocation::from_group]. *)
Definition from_group (p : prepared) (g : group) : out (option location * prepared) :=
  let* t := orient_group g in
  let '(g, hd) := t in
  let* grid_size := measure_timing_pattern p g in
  let* o := line_intersect (k0 (cap_corners (gr0 g))) (k1 (cap_corners (gr0 g)))
                           (k0 (cap_corners (gr2 g))) (k3 (cap_corners (gr2 g))) in
  match o with
  | None => Ok (None, p)
  | Some align =>
      let* t := (if 21 <? grid_size then locate_alignment p g hd align else Ok (Some align, p)) in
      match t with
      | (None, p) => Ok (None, p)
      | (Some align, p) =>
          let* v := version_from_grid_size grid_size in
          if Z.of_nat (length VERSION_DATA_BASE) <=? v then Ok (None, p)
          else
            let* o := setup_perspective p g align grid_size in
            match o with
            | None => Ok (None, p)
            | Some c => Ok (Some (MkLoc grid_size c), p)
            end
      end
  end.

(** * match_capstones.rs *)

(** match_capstones.rs:52-88 [find_possible_neighbors]: lists of (index, distance). *)
Definition find_possible_neighbors (caps : list (capstone T)) (idx : nat)
    : out (list (nat * T) * list (nat * T)) :=
  let* cap := aget caps idx in
  let* t := for_each (range 0 (length caps)) (fun i s =>
    let '(hlist, vlist) := s in
    if Nat.eqb i idx then Ok s
    else
      let* other := aget caps i in
      let '(u, v) := persp_unmap (cap_c cap) (cap_center other) in
      let u := n_abs (n_sub u (n_ratio 7 2)) in
      let v := n_abs (n_sub v (n_ratio 7 2)) in
      let hlist := if n_ltb u (n_mul (n_ratio 2 10) v) then hlist ++ [(i, v)] else hlist in
      let vlist := if n_ltb v (n_mul (n_ratio 2 10) u) then vlist ++ [(i, u)] else vlist in
      Ok (hlist, vlist)) ([], []) in
  Ok t.

(** match_capstones.rs:27-34: the asymmetry of two distances. *)
Definition neighbor_score (h v : T) : T :=
  if n_ltb h v then n_abs (n_sub (n_of 1) (n_div h v)) else n_abs (n_sub (n_of 1) (n_div v h)).

(** Entries in the order of their scores: none is smaller than the one before it. *)
Definition in_order (e e' : T * (nat * nat)) : Prop := n_compare (fst e') (fst e) <> Some Lt.

(** Comparing the scores of a list is a total order: what [sort_unstable_by] asks of its argument. *)
Definition ordered_scores (l : list (T * (nat * nat))) : Prop :=
  (forall e e', In e l -> In e' l -> exists c, n_compare (fst e) (fst e') = Some c /\ n_compare (fst e') (fst e) = Some (CompOpp c))
  /\ (forall e e' e'', In e l -> In e' l -> In e'' l -> in_order e e' -> in_order e' e'' -> in_order e e'').

(** [sort_unstable_by] with [partial_cmp .. expect] (match_capstones.rs:45-49).  In which order the sort of
    the standard library leaves entries with equal scores is not promised, and which comparisons it makes
    neither; so it is taken to be any function that does what is promised: it ends; unless a comparison panics,
    the result is a permutation of the list; and when the comparison is a total order there is a result, in order. *)
Class Sorter := MkSorter {
  sort_ranked : list (T * (nat * nat)) -> out (list (T * (nat * nat)));
  sort_ends : forall l, sort_ranked l <> Diverge;
  sort_keeps : forall l l', sort_ranked l = Ok l' -> Permutation l l';
  sort_orders : forall l, ordered_scores l -> exists l', sort_ranked l = Ok l' /\ Sorted in_order l';
}.
Context {Srt : Sorter}.

(** match_capstones.rs:14-50 [find_and_rank_possible_neighbors]. *)
Definition find_and_rank_possible_neighbors (caps : list (capstone T)) (idx : nat)
    : out (list (nat * nat)) :=
  let* t := find_possible_neighbors caps idx in
  let '(hlist, vlist) := t in
  let res := flat_map (fun hn =>
    flat_map (fun vn =>
      let score := neighbor_score (snd hn) (snd vn) in
      if n_ltb score (n_ratio 1 4) then [(score, (fst hn, fst vn))] else []) vlist) hlist in
  let* sorted := sort_ranked res in
  Ok (map snd sorted).

(** * prepare.rs: groups and grids *)

(** [used_capstones.contains(&i)]. *)
Definition used_in (used : list nat) (i : nat) : bool := existsb (Nat.eqb i) used.

(** prepare.rs:278-302: one pair; the state is (used_capstones, groups), groups as
    index triples together with the group itself, in reverse order.  The image is
    only read: [from_group] works on a clone. *)
Definition try_pair (p : prepared) (caps : list (capstone T)) (idx : nat) (pair : nat * nat)
    (s : list nat * list ((nat * nat * nat) * group)) : out (list nat * list ((nat * nat * nat) * group)) :=
  let '(used, groups) := s in
  let '(a, b) := pair in
  if used_in used a || used_in used b then Ok s
  else
    let* ca := aget caps a in
    let* ci := aget caps idx in
    let* cb := aget caps b in
    let g := MkGroup ca ci cb in
    let* t := from_group (clone p) g in
    match fst t with
    | None => Ok s
    | Some _ => Ok (used ++ [a; idx; b], ((a, idx, b), g) :: groups)
    end.

(** prepare.rs:268-305 [find_groupings]. *)
Definition find_groupings_indexed (p : prepared) (caps : list (capstone T))
    : out (list ((nat * nat * nat) * group)) :=
  let* t := for_each (range 0 (length caps)) (fun idx s =>
    if used_in (fst s) idx then Ok s
    else
      let* pairs := find_and_rank_possible_neighbors caps idx in
      for_each pairs (try_pair p caps idx) s) ([], []) in
  Ok (rev (snd t)).

Definition find_groupings (p : prepared) (caps : list (capstone T)) : out (list group) :=
  let* l := find_groupings_indexed p caps in Ok (map snd l).

(** lib.rs:52-63 [struct Grid] with a [RefGridImage] inside (grid.rs:125-128). *)
Record located := MkLocated { lg_loc : location; lg_bounds : corners }.

(** prepare.rs:240-262: the bounds of one grid. *)
Definition grid_bounds (l : location) : out corners :=
  let s := n_add (n_of (loc_size l)) (n_of 1) in
  let z := n_of 0 in
  let* a := persp_map (loc_c l) z z in
  let* b := persp_map (loc_c l) s z in
  let* c := persp_map (loc_c l) s s in
  let* d := persp_map (loc_c l) z s in
  Ok (Corners a b c d).

(** prepare.rs:229-266 [detect_grids]: the grids and the final image they refer to. *)
Definition detect_grids (p : prepared) : out (list located * prepared) :=
  let* t := capstones_from_image p in
  let '(stones, p) := t in
  let* groups := find_groupings p stones in
  let* t := for_each groups (fun g s =>
    let '(p, locs) := s in
    let* t := from_group p g in
    match t with
    | (None, p) => Ok (p, locs)
    | (Some l, p) => Ok (p, locs ++ [l])
    end) (p, []) in
  let '(p, locs) := t in
  let* grids := for_each locs (fun l acc =>
    let* b := grid_bounds l in
    Ok (acc ++ [MkLocated l b])) [] in
  Ok (grids, p).

(** The outcome of an infallible function inside a fallible one. *)
Definition lift {E A} (r : out A) : res E A :=
  match r with Ok a => Ok a | Err e => match e with end | Panic => Panic | Diverge => Diverge end.

(** grid.rs:130-142 [impl BitGrid for RefGridImage]. *)
Definition ref_grid (p : prepared) (l : location) : BitGrid :=
  {| g_size := loc_size l;
     g_bit := fun y x =>
       let* q := lift (persp_map (loc_c l) (n_add (n_of x) (n_ratio 1 2)) (n_add (n_of y) (n_ratio 1 2))) in
       let* c := lift (get_pixel_at_point p q) in
       Ok (negb (is_white c)) |}.

End Numbers.
Arguments group : clear implicits.
Arguments location : clear implicits.
Arguments located : clear implicits.
Arguments Sorter T {N}.

(** What the fit of a transform to a picture is: the modules whose colour every symbol of a version has in
    common are compared, nine samples each, with the picture. *)
From Verif Require Import Base ModelImage ModelGeometry FloodProofs SpecImage SpecPicture SpecQR.
Open Scope Z_scope.

(** The square of [2 r + 1] by [2 r + 1] modules about a centre, as offsets (row, column). *)
Definition square_about (r : Z) : list (Z * Z) := list_prod (zrange (- r) (r + 1)) (zrange (- r) (r + 1)).

(** The centres of the alignment patterns: all pairs of positions but the three that fall on finder patterns. *)
Definition align_centres (v : Z) : list (Z * Z) :=
  let s := symbol_size v in
  filter (fun c => negb (((fst c =? 6) && (snd c =? 6)) || ((fst c =? 6) && (snd c =? s - 7)) || ((fst c =? s - 7) && (snd c =? 6))))
         (list_prod (alignment_positions v) (alignment_positions v)).

(** The modules compared, with their colours (row, column, dark): the timing patterns with their ends in
    the separators, the finder patterns, the alignment patterns.  A module of a timing pattern
    that lies in an alignment pattern counts twice. *)
Definition expected_modules (v : Z) : list (Z * Z * bool) :=
  flat_map (fun k => [(6, k, Z.even k); (k, 6, Z.even k)]) (zrange 7 (symbol_size v - 7))
  ++ flat_map (fun c => map (fun d => (fst c + fst d, snd c + snd d, finder_dark (fst d) (snd d))) (square_about 3)) (finder_centres v)
  ++ flat_map (fun c => map (fun d => (fst c + fst d, snd c + snd d, align_dark (fst d) (snd d))) (square_about 2)) (align_centres v).

(** The nine samples of a module, in tenths from its corner (down, across). *)
Definition samples : list (Z * Z) := list_prod [3; 5; 7] [3; 5; 7].

Section Numbers.
Context {T : Type} {N : Num T}.

(** Where a sample lands. *)
Definition sample_at (c : perspective T) (y x : Z) (o : Z * Z) : res Empty_set point :=
  persp_map c (n_add (n_of x) (n_ratio (snd o) 10)) (n_add (n_of y) (n_ratio (fst o) 10)).

(** All samples of the compared modules can be computed. *)
Definition samples_land (c : perspective T) (v : Z) : Prop :=
  forall y x d o, In (y, x, d) (expected_modules v) -> In o samples -> exists q, sample_at c y x o = Ok q.

(** A sample counts 1 on a dark pixel, -1 on a light one, 0 outside of the picture. *)
Definition sample_value (I : image) (c : perspective T) (y x : Z) (o : Z * Z) : Z :=
  match sample_at c y x o with
  | Ok q =>
      if (0 <=? px q) && (px q <? im_w I) && (0 <=? py q) && (py q <? im_h I)
      then if pix I (px q, py q) =? 0 then -1 else 1
      else 0
  | _ => 0
  end.

Definition tally (I : image) (c : perspective T) (y x : Z) : Z :=
  fold_right (fun o acc => sample_value I c y x o + acc) 0 samples.

(** The score: agreements less disagreements. *)
Definition score (I : image) (c : perspective T) (v : Z) : Z :=
  fold_right (fun e acc => let '(y, x, d) := e in (if d : bool then tally I c y x else - tally I c y x) + acc) 0 (expected_modules v).

(** All nine samples of a module have the colour [dark]. *)
Definition module_fits (I : image) (c : perspective T) (y x : Z) (dark : bool) : Prop :=
  forall o, In o samples -> exists q, sample_at c y x o = Ok (MkPoint (fst q) (snd q)) /\ in_image I q /\ (pix I q <> 0 <-> dark = true).
End Numbers.

(** The number of compared modules, and the best score. *)
Definition align_count (v : Z) : Z :=
  let k := Z.of_nat (length (alignment_positions v)) in if k =? 0 then 0 else k * k - 3.

Definition best_score (v : Z) : Z := 9 * (2 * (symbol_size v - 14) + 3 * 49 + align_count v * 25).

(** A picture of a QR Code symbol: what the function patterns look like and where the
    modules of a symbol are in a picture.

    Independent of the model.  A symbol is a function from row and column to the colour of
    the module (true = dark); a picture is a width, a height and a function giving the colour
    of a pixel (x, y), 0 being white and anything else dark. *)
From Coq Require Import List ZArith Bool Lia.
From Verif Require Import SpecQR SpecImage SpecThreshold SpecScan SpecFinder.
From Coq Require Import ZifyBool.
Import ListNotations.
Open Scope Z_scope.

(** * Function patterns *)

(** The square ring around a centre on which a module lies. *)
Definition ring_no (dy dx : Z) : Z := Z.max (Z.abs dy) (Z.abs dx).

(** Finder patterns are light on ring 2, alignment patterns on ring 1. *)
Definition finder_dark (dy dx : Z) : bool := negb (ring_no dy dx =? 2).
Definition align_dark (dy dx : Z) : bool := negb (ring_no dy dx =? 1).

(** The centres (row, column) of the three finder patterns. *)
Definition finder_centres (v : Z) : list (Z * Z) :=
  let s := symbol_size v in [(3, 3); (3, s - 4); (s - 4, 3)].

(** The centres of the alignment patterns. *)
Definition align_centre (v cy cx : Z) : Prop :=
  In cy (alignment_positions v) /\ In cx (alignment_positions v)
  /\ let s := symbol_size v in
     ~ (cy = 6 /\ cx = 6) /\ ~ (cy = 6 /\ cx = s - 7) /\ ~ (cy = s - 7 /\ cx = 6).

(** Finder patterns, separators, timing patterns and alignment patterns of [sym] are those
    of version [v].  The rest of the symbol is arbitrary. *)
Record function_patterns (v : Z) (sym : Z -> Z -> bool) : Prop := {
  fp_finder : forall cy cx dy dx, In (cy, cx) (finder_centres v) -> ring_no dy dx <= 3 ->
    sym (cy + dy) (cx + dx) = finder_dark dy dx;
  fp_separator : forall cy cx dy dx, In (cy, cx) (finder_centres v) -> ring_no dy dx = 4 ->
    0 <= cy + dy < symbol_size v -> 0 <= cx + dx < symbol_size v -> sym (cy + dy) (cx + dx) = false;
  fp_timing : forall k, 8 <= k <= symbol_size v - 9 -> sym 6 k = Z.even k /\ sym k 6 = Z.even k;
  fp_align : forall cy cx dy dx, align_centre v cy cx -> ring_no dy dx <= 2 ->
    sym (cy + dy) (cx + dx) = align_dark dy dx
}.

(** * Pictures *)

(** The module (row, column) of a symbol of [n] by [n] modules seen at column [i] and row [j]
    of the picture of the symbol turned clockwise by [r] quarter turns. *)
Definition turned (r : nat) (n i j : Z) : Z * Z :=
  match r with
  | O => (j, i)
  | 1%nat => (n - 1 - i, j)
  | 2%nat => (n - 1 - j, n - 1 - i)
  | _ => (i, n - 1 - j)
  end.

(** The symbol covers the square of [n * m] by [n * m] pixels from (ox, oy) on. *)
Definition in_square (n m ox oy : Z) (q : pixel) : Prop :=
  ox <= fst q < ox + n * m /\ oy <= snd q < oy + n * m.

(** The module (row, column) a pixel of that square belongs to. *)
Definition module_at (r : nat) (n m ox oy : Z) (q : pixel) : Z * Z :=
  turned r n ((fst q - ox) / m) ((snd q - oy) / m).

(** A pixel in one of the three finder patterns. *)
Definition in_finder (v m ox oy : Z) (r : nat) (q : pixel) : Prop :=
  let n := symbol_size v in
  in_square n m ox oy q
  /\ exists cy cx, In (cy, cx) (finder_centres v)
       /\ ring_no (fst (module_at r n m ox oy q) - cy) (snd (module_at r n m ox oy q) - cx) <= 3.

(** The picture shows the symbol, with [m] pixels per module, and a quiet zone of at least
    one pixel around it (or the edge of the picture). *)
Record shows (w h : Z) (col : pixel -> Z) (n : Z) (sym : Z -> Z -> bool) (m ox oy : Z) (r : nat) : Prop := {
  sh_unit : 1 <= m;
  sh_left : 0 <= ox;
  sh_top : 0 <= oy;
  sh_right : ox + n * m <= w;
  sh_bottom : oy + n * m <= h;
  sh_module : forall q, in_square n m ox oy q ->
    (col q <> 0 <-> sym (fst (module_at r n m ox oy q)) (snd (module_at r n m ox oy q)) = true);
  sh_quiet : forall q, inside w h q -> ~ in_square n m ox oy q ->
    ox - 1 <= fst q <= ox + n * m -> oy - 1 <= snd q <= oy + n * m -> col q = 0
}.

(** The modules of the finder patterns and separators, of the row and the column of the timing
    patterns, and of the alignment patterns. *)
Definition pattern_module (v y x : Z) : Prop :=
  (exists cy cx, In (cy, cx) (finder_centres v) /\ ring_no (y - cy) (x - cx) <= 4)
  \/ y = 6 \/ x = 6
  \/ exists cy cx, align_centre v cy cx /\ ring_no (y - cy) (x - cx) <= 2.

(** The pixels in the middle of their module: two by two of them, three by three if the number
    of pixels per module is odd. *)
Definition central (m z : Z) : Prop := Z.abs (2 * (z mod m) - (m - 1)) <= 2.
Definition in_middle (m ox oy : Z) (q : pixel) : Prop := central m (fst q - ox) /\ central m (snd q - oy).

(** The picture shows the symbol well enough: the function patterns and the middles of the other modules
    have the right colours, and the pixels around the finder patterns are white as far as the
    picture reaches.  The rest of the data modules, and of the surroundings, is arbitrary. *)
Record legible (w h : Z) (col : pixel -> Z) (v : Z) (sym : Z -> Z -> bool) (m ox oy : Z) (r : nat) : Prop := {
  lg_unit : 1 <= m;
  lg_left : 0 <= ox;
  lg_top : 0 <= oy;
  lg_right : ox + symbol_size v * m <= w;
  lg_bottom : oy + symbol_size v * m <= h;
  lg_module : forall q, in_square (symbol_size v) m ox oy q ->
    let c := module_at r (symbol_size v) m ox oy q in
    pattern_module v (fst c) (snd c) \/ in_middle m ox oy q -> (col q <> 0 <-> sym (fst c) (snd c) = true);
  lg_quiet : forall q q', inside w h q -> ~ in_square (symbol_size v) m ox oy q -> in_finder v m ox oy r q' ->
    Z.abs (fst q - fst q') <= 1 -> Z.abs (snd q - snd q') <= 1 -> col q = 0
}.

Lemma shows_legible w h col v sym m ox oy r : shows w h col (symbol_size v) sym m ox oy r -> legible w h col v sym m ox oy r.
Proof.
  intros [A1 A2 A3 A4 A5 A6 A7]. constructor; try assumption.
  - intros q Hq c _. apply A6. exact Hq.
  - intros q q' I N [[X Y] _] Hx Hy. apply A7; [exact I|exact N|lia|lia].
Qed.

(** From the outermost pixel of module (0, 0): [s] pixels along the symbol's rows and [t] pixels
    along its columns. *)
Definition step_at (r : nat) (n m ox oy s t : Z) : pixel :=
  let last := n * m - 1 in
  match r with
  | O => (ox + s, oy + t)
  | 1%nat => (ox + last - t, oy + s)
  | 2%nat => (ox + last - s, oy + last - t)
  | _ => (ox + t, oy + last - s)
  end.

(** The larger coordinate of the fourth corner: where the line along the inner edge of the finder pattern at the
    bottom left meets that of the one at the top right. *)
Definition furthest (v m ox oy : Z) (r : nat) : Z :=
  let d := (symbol_size v - 7) * m in let c := step_at r (symbol_size v) m ox oy d d in Z.max (fst c) (snd c).

(** Nothing else in the picture looks like a finder pattern to a search by rows. *)
Definition no_other_finder (w h : Z) (col : pixel -> Z) (v m ox oy : Z) (r : nat) : Prop :=
  forall y left stone right, finder_at w h col y left stone right -> in_finder v m ox oy r (right, y).

(** The pictures given to the library: by the dark pixels, or by the luminance of the pixels. *)
Definition ink (fill : Z -> Z -> bool) (q : pixel) : Z := if fill (fst q) (snd q) then 1 else 0.
Definition shade (w : Z) (fill : Z -> Z -> Z) (q : pixel) : Z :=
  if is_dark w (fun z => fill (fst z) (snd z)) q then 1 else 0.

(** A picture of a symbol as the theorems want it: at least two pixels per module, at most
    32768 pixels wide and high, the square of a finder pattern's side times the
    coordinates of the fourth corner within 32 bits, and nothing else that looks like a finder pattern.  Version 21 is left out:
    the library's table of alignment patterns is wrong for it. *)
Record clear_picture (w h : Z) (col : pixel -> Z) (v : Z) (sym : Z -> Z -> bool) (m ox oy : Z) (r : nat) : Prop := {
  cp_width : 1 <= w <= 32768;
  cp_height : 1 <= h <= 32768;
  cp_version : 1 <= v <= 40 /\ v <> 21;
  cp_unit : 2 <= m;
  cp_product : (7 * m - 1) * (7 * m - 1) * furthest v m ox oy r < 2 ^ 31;
  cp_patterns : function_patterns v sym;
  cp_shows : legible w h col v sym m ox oy r;
  cp_only : no_other_finder w h col v m ox oy r
}.

(** Only the places of the dark pixels matter. *)
Lemma clear_picture_same w h f g v sym m ox oy r : (forall q, inside w h q -> (f q = 0 <-> g q = 0)) ->
  clear_picture w h f v sym m ox oy r -> clear_picture w h g v sym m ox oy r.
Proof.
  intros E [A1 A2 A3 A4 A5 A6 [S1 S2 S3 S4 S5 S6 S7] A8]. constructor; try assumption.
  - constructor; try assumption.
    + intros q Hq c Hc. specialize (S6 q Hq Hc). fold c in S6. rewrite <- S6. specialize (E q). unfold inside, in_square in *. intuition lia.
    + intros q q' Hq N Fq Hx Hy. apply (E q Hq). apply (S7 q q'); assumption.
  - intros y left stone right F. apply (A8 y left stone right). apply (finder_at_same1 w h g f); [|exact F].
    intros q Hq. specialize (E q Hq). tauto.
Qed.

(** * Rendering *)

(** The colour at column [i] and row [j] of the symbol turned by [r] quarter turns. *)
Definition look (r : nat) (n : Z) (sym : Z -> Z -> bool) (j i : Z) : bool :=
  sym (fst (turned r n i j)) (snd (turned r n i j)).

(** The picture of a symbol on a white background. *)
Definition rendered (n : Z) (sym : Z -> Z -> bool) (m ox oy : Z) (r : nat) (x y : Z) : bool :=
  (ox <=? x) && (x <? ox + n * m) && (oy <=? y) && (y <? oy + n * m)
  && look r n sym ((y - oy) / m) ((x - ox) / m).

(** The [k] modules from [a] on of a row are all [b]. *)
Definition span (f : Z -> bool) (a k : Z) (b : bool) : Prop := forall i, a <= i < a + k -> f i = b.

(** Five consecutive runs of modules that, drawn with [m] pixels per module, look like a finder pattern. *)
Definition finder_like (m n : Z) (f : Z -> bool) (a k1 k2 k3 k4 k5 : Z) : Prop :=
  1 <= k1 /\ 1 <= k2 /\ 1 <= k3 /\ 1 <= k4 /\ 1 <= k5 /\ 0 <= a /\ a + k1 + k2 + k3 + k4 + k5 <= n
  /\ span f a k1 true /\ span f (a + k1) k2 false /\ span f (a + k1 + k2) k3 true
  /\ span f (a + k1 + k2 + k3) k4 false /\ span f (a + k1 + k2 + k3 + k4) k5 true
  /\ (a = 0 \/ f (a - 1) = false) /\ (a + k1 + k2 + k3 + k4 + k5 = n \/ f (a + k1 + k2 + k3 + k4 + k5) = false)
  /\ finder_ratio (m * k1) (m * k2) (m * k3) (m * k4) (m * k5).

(** The turned symbol as a picture of one pixel per module. *)
Definition modules (r : nat) (n : Z) (sym : Z -> Z -> bool) (q : pixel) : Z := if look r n sym (snd q) (fst q) then 1 else 0.

(** In the rows of the turned symbol, only the finder patterns look like finder patterns: any other five
    such runs begin and end in different connected regions. *)
Definition plain (v : Z) (sym : Z -> Z -> bool) (m : Z) (r : nat) : Prop :=
  let n := symbol_size v in
  forall j a k1 k2 k3 k4 k5, 0 <= j < n -> finder_like m n (look r n sym j) a k1 k2 k3 k4 k5 ->
    let i := a + k1 + k2 + k3 + k4 in
    blob n n (modules r n sym) (i, j) (a, j) ->
    exists cy cx, In (cy, cx) (finder_centres v) /\ ring_no (fst (turned r n i j) - cy) (snd (turned r n i j) - cx) <= 3.

(** * Drawing in dots *)

(** Whether a module is a [pattern_module]. *)
Definition solid (v y x : Z) : bool :=
  let near k cy cx := ring_no (y - cy) (x - cx) <=? k in
  let s := symbol_size v in
  let corner cy cx := (cy =? 6) && (cx =? 6) || (cy =? 6) && (cx =? s - 7) || (cy =? s - 7) && (cx =? 6) in
  existsb (fun c => near 4 (fst c) (snd c)) (finder_centres v) || (y =? 6) || (x =? 6)
  || existsb (fun cy => existsb (fun cx => negb (corner cy cx) && near 2 cy cx) (alignment_positions v)) (alignment_positions v).

Lemma solid_iff v y x : solid v y x = true <-> pattern_module v y x.
Proof.
  unfold solid, pattern_module. cbv zeta. rewrite !orb_true_iff, !existsb_exists, !Z.eqb_eq. split.
  - intros [[[(c & H & N)|H]|H]|(cy & Hy & H)]; auto.
    + left. exists (fst c), (snd c). split; [destruct c; exact H|apply Z.leb_le; exact N].
    + apply existsb_exists in H as (cx & Hx & H). apply andb_prop in H as [Nc Nr]. right; right; right.
      exists cy, cx. split; [|apply Z.leb_le; exact Nr]. split; [exact Hy|]. split; [exact Hx|]. cbv zeta. lia.
  - intros [(cy & cx & H & N)|[H|[H|(cy & cx & (Hy & Hx & Nc) & N)]]]; [| | |]; auto.
    + left; left; left. exists (cy, cx). split; [exact H|apply Z.leb_le; exact N].
    + right. exists cy. split; [exact Hy|]. apply existsb_exists. exists cx. split; [exact Hx|]. cbv zeta in Nc. apply andb_true_iff. split; lia.
Qed.

(** The picture of a symbol on a white background in which the function patterns are drawn as usual
    and the other dark modules as square dots, [k] pixels from the edges of the module. *)
Definition inset (m k z : Z) : bool := (k <=? z mod m) && (z mod m <? m - k).
Definition dotted (v : Z) (sym : Z -> Z -> bool) (m k ox oy : Z) (r : nat) (x y : Z) : bool :=
  let n := symbol_size v in
  let c := module_at r n m ox oy (x, y) in
  (ox <=? x) && (x <? ox + n * m) && (oy <=? y) && (y <? oy + n * m)
  && sym (fst c) (snd c) && (solid v (fst c) (snd c) || inset m k (x - ox) && inset m k (y - oy)).

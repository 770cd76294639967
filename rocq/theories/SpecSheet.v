(** Several symbols in one picture.

    Independent of the model. *)
From Coq Require Import List ZArith Bool Lia.
From Verif Require Import SpecImage SpecThreshold SpecScan SpecFinder SpecPicture SpecQR.
From Coq Require Import ZifyBool.
Import ListNotations.
Open Scope Z_scope.

(** A symbol in the picture: version, modules, pixels per module, upper left pixel and quarter turns. *)
Record mark := Mark { mk_v : Z; mk_sym : Z -> Z -> bool; mk_m : Z; mk_ox : Z; mk_oy : Z; mk_r : nat }.

Definition mark_square (k : mark) (q : pixel) : Prop := in_square (symbol_size (mk_v k)) (mk_m k) (mk_ox k) (mk_oy k) q.

(** * Finder patterns *)

(** A finder pattern in the picture: the pixels per module, and the upper left pixel. *)
Definition finder : Type := Z * pixel.

(** The pattern on the left or right, at the top or bottom, of the square of a symbol. *)
Definition finder_of (k : mark) (right bottom : bool) : finder :=
  let d := (symbol_size (mk_v k) - 7) * mk_m k in
  (mk_m k, (mk_ox k + (if right then d else 0), mk_oy k + (if bottom then d else 0))).

(** The one where the rows and the columns of the symbol begin, the one where the rows end, and the one where
    the columns end. *)
Definition corner_finder (k : mark) : finder :=
  match mk_r k with
  | O => finder_of k false false
  | 1%nat => finder_of k true false
  | 2%nat => finder_of k true true
  | _ => finder_of k false true
  end.
Definition row_finder (k : mark) : finder :=
  match mk_r k with
  | O => finder_of k true false
  | 1%nat => finder_of k true true
  | 2%nat => finder_of k false true
  | _ => finder_of k false false
  end.
Definition column_finder (k : mark) : finder :=
  match mk_r k with
  | O => finder_of k false true
  | 1%nat => finder_of k false false
  | 2%nat => finder_of k true false
  | _ => finder_of k true true
  end.
Definition finders (k : mark) : list finder := [corner_finder k; row_finder k; column_finder k].
Definition all_finders (ks : list mark) : list finder := flat_map finders ks.

(** Twice the distances of the middles of two patterns, along the rows and along the columns of the picture. *)
Definition gap_x (f g : finder) : Z := Z.abs ((2 * fst (snd g) + 7 * fst g) - (2 * fst (snd f) + 7 * fst f)).
Definition gap_y (f g : finder) : Z := Z.abs ((2 * snd (snd g) + 7 * fst g) - (2 * snd (snd f) + 7 * fst f)).

(** The order in which a search by rows comes upon them: the first row through the middle part of a pattern is
    two modules below its upper edge; in that row, by the column where the pattern ends. *)
Definition sooner_finder (f g : finder) : Prop :=
  let y (f : finder) := snd (snd f) + 2 * fst f in let x (f : finder) := fst (snd f) + 7 * fst f in
  y f < y g \/ y f = y g /\ x f < x g.

(** [g] lies (nearly) beside [f] in the picture, [h] (nearly) above or below it, and they are about equally far away:
    a search for symbols with corner [f] may try them. *)
Definition may_pair (f g h : finder) : Prop :=
  5 * gap_y f g <= gap_x f g + 6 /\ 5 * gap_x f h <= gap_y f h + 6
  /\ 3 * Z.max (gap_x f g) (gap_y f h) <= 4 * Z.min (gap_x f g) (gap_y f h) + 7.

(** Their distances differ by more than about a 26th. *)
Definition less_square (f g h : finder) : Prop :=
  Z.max (gap_x f g) (gap_y f h) + 53 <= 26 * Z.abs (gap_x f g - gap_y f h).

(** [g] belongs to a symbol whose corner is come upon before [f]. *)
Definition spent (ks : list mark) (f g : finder) : Prop :=
  exists k, In k ks /\ In g (finders k) /\ sooner_finder (corner_finder k) f.

(** Taking the patterns in order, and leaving aside those of symbols whose corner came before, only the corners of
    symbols have patterns that may be tried with them; among these pairs are the two patterns of the symbol
    itself, and every other pair includes one of the two and is less square. *)
Definition orderly (ks : list mark) : Prop :=
  forall f g h, In f (all_finders ks) -> In g (all_finders ks) -> In h (all_finders ks) -> g <> f -> h <> f ->
    ~ spent ks f f -> ~ spent ks f g -> ~ spent ks f h -> may_pair f g h ->
    exists k, In k ks /\ f = corner_finder k
      /\ let own x := x = row_finder k \/ x = column_finder k in
         own g /\ own h \/ (own g \/ own h) /\ less_square f g h.

(** * Sheets *)

Record clear_mark (w h : Z) (col : pixel -> Z) (k : mark) : Prop := {
  ck_version : 1 <= mk_v k <= 40 /\ mk_v k <> 21;
  ck_unit : 2 <= mk_m k;
  ck_product : (7 * mk_m k - 1) * (7 * mk_m k - 1) * furthest (mk_v k) (mk_m k) (mk_ox k) (mk_oy k) (mk_r k) < 2 ^ 31;
  ck_patterns : function_patterns (mk_v k) (mk_sym k);
  ck_shows : legible w h col (mk_v k) (mk_sym k) (mk_m k) (mk_ox k) (mk_oy k) (mk_r k)
}.

(** A picture of several symbols: each as in [clear_picture], their squares disjoint, nothing else that looks like
    a finder pattern. *)
Record fair_sheet (w h : Z) (col : pixel -> Z) (ks : list mark) : Prop := {
  cs_width : 1 <= w <= 32768;
  cs_height : 1 <= h <= 32768;
  cs_marks : forall k, In k ks -> clear_mark w h col k;
  cs_apart : ForallOrdPairs (fun k k' => forall q, mark_square k q -> ~ mark_square k' q) ks;
  cs_only : forall y left stone right, finder_at w h col y left stone right ->
    exists k, In k ks /\ in_finder (mk_v k) (mk_m k) (mk_ox k) (mk_oy k) (mk_r k) (right, y)
}.

(** As the theorems want it: moreover, the finder patterns are so placed that no wrong ones are taken together. *)
Definition clear_sheet (w h : Z) (col : pixel -> Z) (ks : list mark) : Prop := fair_sheet w h col ks /\ orderly ks.

(** Only the places of the dark pixels matter. *)
Lemma fair_sheet_same w h f g ks : (forall q, inside w h q -> (f q = 0 <-> g q = 0)) -> fair_sheet w h f ks -> fair_sheet w h g ks.
Proof.
  intros E [A1 A2 A3 A4 A5]. constructor; try assumption.
  - intros k Hk. destruct (A3 k Hk) as [B1 B2 B3 B4 [S1 S2 S3 S4 S5 S6 S7]]. constructor; try assumption. constructor; try assumption.
    + intros q Hq c Hc. specialize (S6 q Hq Hc). fold c in S6. rewrite <- S6. specialize (E q). unfold inside, in_square in *. intuition lia.
    + intros q q' Hq N Fq Hx Hy. apply (E q Hq). apply (S7 q q'); assumption.
  - intros y left stone right F. apply (A5 y left stone right). apply (finder_at_same1 w h g f); [|exact F].
    intros q Hq. specialize (E q Hq). tauto.
Qed.

Lemma clear_sheet_same w h f g ks : (forall q, inside w h q -> (f q = 0 <-> g q = 0)) -> clear_sheet w h f ks -> clear_sheet w h g ks.
Proof. intros E [F O]. split; [exact (fair_sheet_same w h f g ks E F)|exact O]. Qed.

(** * Sheets of messages *)

(** A message printed as symbol [pr_mark], with an error correction level and a mask. *)
Record print := Print { pr_mark : mark; pr_level : level; pr_mask : Z; pr_text : list segment }.

Definition print_ok (t : print) : Prop :=
  0 <= pr_mask t < 8 /\ message_ok (mk_v (pr_mark t)) (pr_text t) /\ fits (mk_v (pr_mark t)) (pr_level t) (pr_text t)
  /\ is_symbol (mk_v (pr_mark t)) (pr_level t) (pr_mask t) (pr_text t) (mk_sym (pr_mark t)).

(** * Sheets put together from pictures of single symbols *)

(** The pictures laid over each other: a pixel is dark if it is dark in one of them. *)
Definition overlay (pics : mark -> Z -> Z -> bool) (ks : list mark) (x y : Z) : bool := existsb (fun k => pics k x y) ks.

(** A clear picture of the one symbol, white outside its square. *)
Definition clear_alone (w h : Z) (pic : Z -> Z -> bool) (k : mark) : Prop :=
  clear_picture w h (ink pic) (mk_v k) (mk_sym k) (mk_m k) (mk_ox k) (mk_oy k) (mk_r k)
  /\ forall x y, pic x y = true -> mark_square k (x, y).

(** The number of pixels along a side. *)
Definition side (k : mark) : Z := symbol_size (mk_v k) * mk_m k.

(** At least a row or a column of pixels lies between the squares of the two symbols. *)
Definition spaced (k k' : mark) : Prop :=
  mk_ox k + side k < mk_ox k' \/ mk_ox k' + side k' < mk_ox k \/ mk_oy k + side k < mk_oy k' \/ mk_oy k' + side k' < mk_oy k.

(** Symbols of one version and size, upright. *)
Definition alike (v m : Z) (ks : list mark) : Prop := forall k, In k ks -> mk_v k = v /\ mk_m k = m /\ mk_r k = 0%nat.

(** Symbols of any sizes within the rows [y0] to [y0 + s - 1] (the columns [x0] to [x0 + s - 1]), at least four thirds
    of [s] from each other. *)
Definition within_rows (s y0 : Z) (ks : list mark) : Prop :=
  (forall k, In k ks -> y0 <= mk_oy k /\ mk_oy k + side k <= y0 + s)
  /\ ForallOrdPairs (fun k k' => 4 * s <= 3 * (mk_ox k' - (mk_ox k + side k)) \/ 4 * s <= 3 * (mk_ox k - (mk_ox k' + side k'))) ks.
Definition within_columns (s x0 : Z) (ks : list mark) : Prop :=
  (forall k, In k ks -> x0 <= mk_ox k /\ mk_ox k + side k <= x0 + s)
  /\ ForallOrdPairs (fun k k' => 4 * s <= 3 * (mk_oy k' - (mk_oy k + side k)) \/ 4 * s <= 3 * (mk_oy k - (mk_oy k' + side k'))) ks.

(** Three symbols of version 1 so placed that one pattern of each makes a square of its own: the row pattern of the
    first with the column pattern of the second 24 modules to the left and the corner pattern of the third 24
    modules below. *)
Definition astray (s1 s2 s3 : Z -> Z -> bool) (m ox oy : Z) : list mark :=
  [Mark 1 s1 m (ox + 38 * m) oy 2; Mark 1 s2 m ox (oy + 14 * m) 2; Mark 1 s3 m (ox + 38 * m) (oy + 38 * m) 0].

(** Nothing dark outside the squares of the symbols. *)
Definition blank_outside (w h : Z) (col : pixel -> Z) (ks : list mark) : Prop :=
  forall q, inside w h q -> col q <> 0 -> exists k, In k ks /\ mark_square k q.

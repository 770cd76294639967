(** The user's functions are called once for every place, row by row. *)
From Verif Require Import Base Lib ModelDecode ModelImage ModelCalls SpecCalls PrepareProofs.
From Coq Require Import ZifyBool.
Open Scope Z_scope.
Ltac Zify.zify_post_hook ::= Z.div_mod_to_equations.
Set Bullet Behavior "Strict Subproofs".

(** * The order of the places *)

Definition places (w h : Z) : list (Z * Z) := flat_map (fun y => map (fun x => (x, y)) (zrange 0 w)) (zrange 0 h).

Lemma places_length w h : 0 <= w -> 0 <= h -> length (places w h) = Z.to_nat (w * h).
Proof.
  intros Hw Hh. unfold places.
  assert (G : forall l : list Z, length (flat_map (fun y => map (fun x => (x, y)) (zrange 0 w)) l) = (Z.to_nat w * length l)%nat).
  { induction l as [|a l IH]; cbn [flat_map length]; [lia|]. rewrite app_length, map_length, length_zrange, IH. lia. }
  rewrite G, length_zrange. lia.
Qed.

Lemma places_at w h x y : 0 <= x < w -> 0 <= y < h -> nth_error (places w h) (Z.to_nat (y * w + x)) = Some (x, y).
Proof.
  intros Hx Hy. unfold places. rewrite (@zrange_app 0 y h), flat_map_app by lia. pose proof (places_length w y ltac:(lia) ltac:(lia)) as L. unfold places in L.
  rewrite nth_error_app2 by (rewrite L; nia). rewrite L. rewrite (@zrange_cons y) by lia. cbn [flat_map].
  replace (Z.to_nat (y * w + x) - Z.to_nat (w * y))%nat with (Z.to_nat x) by nia. rewrite nth_error_app1 by (rewrite map_length, length_zrange; lia).
  rewrite nth_error_map. rewrite (nth_error_nth' _ 0) by (rewrite length_zrange; lia). rewrite nth_zrange by lia. cbn [option_map]. do 2 f_equal. lia.
Qed.

Lemma places_rows w h : 0 <= w -> 0 <= h -> row_by_row w h (places w h).
Proof.
  intros Hw Hh. split; [rewrite places_length by assumption; nia|]. intros k Hk. assert (0 < w) by nia.
  assert (0 <= k mod w < w) by (apply Z.mod_pos_bound; lia). assert (0 <= k / w < h) by (split; [apply Z.div_pos; lia|apply Z.div_lt_upper_bound; nia]).
  rewrite <- (places_at w h (k mod w) (k / w)) by assumption. do 2 f_equal. rewrite Z.mul_comm. apply Z.div_mod. lia.
Qed.

Lemma lists_alike A (l l' : list A) : (forall n, nth_error l n = nth_error l' n) -> l = l'.
Proof.
  revert l'. induction l as [|a l IH]; intros [|a' l'] H; [reflexivity|discriminate (H 0%nat)|discriminate (H 0%nat)|]. pose proof (H 0%nat) as E. injection E as ->. f_equal. apply IH. intros n. exact (H (S n)).
Qed.

Lemma rows_places w h l : 0 <= w -> 0 <= h -> row_by_row w h l -> l = places w h.
Proof.
  intros Hw Hh (L & A). destruct (places_rows w h Hw Hh) as (L' & A'). apply lists_alike. intros n.
  destruct (Z.ltb_spec (Z.of_nat n) (w * h)) as [Hn|Hn].
  - rewrite <- (Nat2Z.id n). rewrite A, A' by lia. reflexivity.
  - rewrite (proj2 (nth_error_None l n)), (proj2 (nth_error_None (places w h) n)) by lia. reflexivity.
Qed.

(** * Loops over the places *)

Lemma for_places E St w h (f : Z -> Z -> St -> res E St) s : for_each (zrange 0 h) (fun y t => for_each (zrange 0 w) (fun x t => f x y t) t) s = for_each (places w h) (fun q => f (fst q) (snd q)) s.
Proof.
  unfold places. generalize (zrange 0 h). intros l. revert s. induction l as [|y l IH]; intros s; cbn [flat_map for_each]; [reflexivity|].
  assert (Ap : forall (l1 l2 : list (Z * Z)) g s, for_each (l1 ++ l2) g s = (let* t := for_each l1 g s in for_each (E := E) (S := St) l2 g t)).
  { intros l1 l2 g. induction l1 as [|a l1 IH1]; intros s1; cbn [app for_each bind]; [reflexivity|]. destruct (g a s1); cbn [bind]; auto. }
  rewrite Ap.
  assert (Mp : forall xs s, for_each (map (fun x => (x, y)) xs) (fun q => f (fst q) (snd q)) s = for_each xs (fun x t => f x y t) s).
  { induction xs as [|a xs IHx]; intros s1; cbn [map for_each fst snd]; [reflexivity|]. destruct (f a y s1); cbn [bind]; auto. }
  rewrite Mp. destruct (for_each (zrange 0 w) _ s); cbn [bind]; auto.
Qed.

Lemma ask_length S A (fill : callback S A) l : forall s s' cs, ask fill s l = Ok (s', cs) -> length cs = length l.
Proof.
  induction l as [|[x y] l IH]; intros s s' cs E; cbn [ask] in E; [injection E as <- <-; reflexivity|]. apply bind_ok_inv in E as ([s1 a] & E1 & E). apply bind_ok_inv in E as ([s2 as_] & E2 & E). injection E as <- <-. cbn [length snd fst] in *. f_equal. exact (IH _ _ _ E2).
Qed.

Lemma ask_pure S A (f : Z -> Z -> A) (s : S) l : ask (fun s x y => Ok (s, f x y)) s l = Ok (s, map (fun q => f (fst q) (snd q)) l).
Proof. induction l as [|[x y] l IH]; cbn [ask]; [reflexivity|]. cbn [bind fst snd]. rewrite IH. reflexivity. Qed.

(** The answers are what the picture made of them shows. *)
Lemma answers_back A w h (cs : list A) d : 0 <= w -> 0 <= h -> length cs = length (places w h) -> map (fun q => answer_at w cs d (fst q) (snd q)) (places w h) = cs.
Proof.
  intros Hw Hh L. apply (nth_ext _ _ d d); [rewrite map_length; auto|]. intros n Hn. rewrite map_length, places_length in Hn by assumption.
  destruct (places_rows w h Hw Hh) as (_ & A'). assert (Hk : 0 <= Z.of_nat n < w * h) by lia. pose proof (A' _ Hk) as E. rewrite Nat2Z.id in E.
  assert (Em : nth_error (map (fun q => answer_at w cs d (fst q) (snd q)) (places w h)) n = Some (answer_at w cs d (Z.of_nat n mod w) (Z.of_nat n / w))) by (rewrite nth_error_map, E; reflexivity).
  rewrite (nth_error_nth _ _ d Em). unfold answer_at. f_equal. assert (0 < w) by nia. rewrite Z.mul_comm, <- Z.div_mod by lia. apply Nat2Z.id.
Qed.

Lemma collect_places w h f : collect w h f = map (fun q => f (fst q) (snd q)) (places w h).
Proof. unfold collect, places. generalize (zrange 0 h). induction l as [|y l IH]; cbn [flat_map map]; [reflexivity|]. rewrite map_app, map_map, IH. reflexivity. Qed.

(** * Pictures *)

Lemma fill_ask S A w h (fill : callback S A) byte s : fill_pixels w h fill byte s = (let* t := ask fill s (places w h) in Ok (fst t, map byte (snd t))).
Proof.
  unfold fill_pixels. rewrite (for_places _ _ w h (fun x y t => let '(s, pixels) := t in let* r := fill s x y in let '(s, a) := r in Ok (s, pixels ++ [byte a]))).
  enough (G : forall l s acc, for_each l (fun q t => let '(s, pixels) := t in let* r := fill s (fst q) (snd q) in let '(s, a) := r in Ok (s, pixels ++ [byte a])) (s, acc) = (let* t := ask fill s l in Ok (fst t, acc ++ map byte (snd t)))) by (rewrite G; reflexivity).
  induction l as [|[x y] l IH]; intros s0 acc; cbn [for_each ask fst snd bind]; [cbn [map]; rewrite app_nil_r; reflexivity|].
  destruct (fill s0 x y) as [[s1 a]|[]| |]; cbn [bind fst snd]; try reflexivity. rewrite IH. destruct (ask fill s1 l) as [[s2 cs]|[]| |]; cbn [bind fst snd map]; try reflexivity. rewrite <- app_assoc. reflexivity.
Qed.

Theorem greyscale_calls S w h (fill : callback S Z) s l : 0 <= w -> 0 <= h -> w * h <= usize_max -> row_by_row w h l ->
  greyscale_by w h fill s = (let* t := ask fill s l in let* p := prepare_from_greyscale w h (answer_at w (snd t) 0) in Ok (p, fst t)).
Proof.
  intros Hw Hh U R. rewrite (rows_places w h l Hw Hh R). unfold greyscale_by, prepare_from_greyscale, usz. replace (w * h <=? usize_max) with true by lia. cbn [bind]. rewrite fill_ask.
  destruct (ask fill s (places w h)) as [[s' cs]|[]| |] eqn:E; cbn [bind fst snd]; try reflexivity. rewrite map_id, collect_places, answers_back by (assumption || exact (ask_length _ _ _ _ _ _ _ E)). reflexivity.
Qed.

Theorem bitmap_calls S w h (fill : callback S bool) s l : 0 <= w -> 0 <= h -> w * h <= usize_max -> row_by_row w h l ->
  bitmap_by w h fill s = (let* t := ask fill s l in let* p := prepare_from_bitmap w h (answer_at w (snd t) false) in Ok (p, fst t)).
Proof.
  intros Hw Hh U R. rewrite (rows_places w h l Hw Hh R). unfold bitmap_by, prepare_from_bitmap, usz. replace (w * h <=? usize_max) with true by lia. cbn [bind]. rewrite fill_ask.
  destruct (ask fill s (places w h)) as [[s' cs]|[]| |] eqn:E; cbn [bind fst snd]; try reflexivity.
  rewrite collect_places, <- (map_map (fun q => answer_at w cs false (fst q) (snd q)) (fun b : bool => if b then 1 else 0)), answers_back by (assumption || exact (ask_length _ _ _ _ _ _ _ E)). reflexivity.
Qed.

Theorem calls_too_big S w h (f1 : callback S bool) (f2 : callback S Z) s : usize_max < w * h -> bitmap_by w h f1 s = Panic /\ greyscale_by w h f2 s = Panic.
Proof. intros H. unfold bitmap_by, greyscale_by, usz. replace (w * h <=? usize_max) with false by lia. split; reflexivity. Qed.

(** * Grids *)

Fixpoint set_bits (bm : list Z) (c : Z) (bs : list bool) : list Z :=
  match bs with
  | [] => bm
  | b :: bs => set_bits (if b then upd bm (Z.to_nat (Z.shiftr c 3)) (Z.lor (nth (Z.to_nat (Z.shiftr c 3)) bm 0) (Z.shiftl 1 (Z.land c 7))) else bm) (c + 1) bs
  end.

Lemma simple_loop S (fill : callback S bool) l : forall s bm c, 0 <= c -> c + Z.of_nat (length l) <= 8 * Z.of_nat (length bm) ->
  for_each l (fun q t => let '(s, bm, c) := t in let* r := fill s (fst q) (snd q) in let '(s, b) := r in
    let* bm := (if b : bool then let* old := aget bm (Z.to_nat (Z.shiftr c 3)) in aset bm (Z.to_nat (Z.shiftr c 3)) (Z.lor old (Z.shiftl 1 (Z.land c 7))) else Ok bm) in Ok (s, bm, c + 1)) (s, bm, c)
  = (let* t := ask fill s l in Ok (fst t, set_bits bm c (snd t), c + Z.of_nat (length l))).
Proof.
  induction l as [|[x y] l IH]; intros s bm c Hc Hl; cbn [for_each ask bind fst snd length] in *; [cbn [set_bits]; do 2 f_equal; lia|].
  destruct (fill s x y) as [[s1 b]|[]| |]; cbn [bind fst snd]; try reflexivity.
  assert (Hi : (Z.to_nat (Z.shiftr c 3) < length bm)%nat) by (rewrite Z.shiftr_div_pow2 by lia; change (2 ^ 3) with 8; lia).
  assert (Eb : (if b then let* old := aget (E := Empty_set) bm (Z.to_nat (Z.shiftr c 3)) in aset bm (Z.to_nat (Z.shiftr c 3)) (Z.lor old (Z.shiftl 1 (Z.land c 7))) else Ok bm)
    = Ok (if b then upd bm (Z.to_nat (Z.shiftr c 3)) (Z.lor (nth (Z.to_nat (Z.shiftr c 3)) bm 0) (Z.shiftl 1 (Z.land c 7))) else bm)).
  { destruct b; [|reflexivity]. rewrite (aget_ok _ 0 Hi). cbn [bind]. apply aset_ok. exact Hi. }
  unfold out in *. rewrite Eb. cbn [bind]. rewrite IH; [|lia|destruct b; rewrite ?length_upd; lia].
  destruct (ask fill s1 l) as [[s2 bs]|[]| |]; cbn [bind fst snd set_bits]; try reflexivity. do 2 f_equal. lia.
Qed.

Lemma pure_loop E (f : Z -> Z -> bool) l : forall bm c, 0 <= c -> c + Z.of_nat (length l) <= 8 * Z.of_nat (length bm) ->
  for_each l (fun q '(bm, c) =>
    let* bm := (if f (fst q) (snd q) then let* old := aget (E := E) bm (Z.to_nat (Z.shiftr c 3)) in aset bm (Z.to_nat (Z.shiftr c 3)) (Z.lor old (Z.shiftl 1 (Z.land c 7))) else Ok bm) in Ok (bm, c + 1)) (bm, c)
  = Ok (set_bits bm c (map (fun q => f (fst q) (snd q)) l), c + Z.of_nat (length l)).
Proof.
  induction l as [|[x y] l IH]; intros bm c Hc Hl; cbn [for_each bind fst snd length map set_bits] in *; [do 2 f_equal; lia|].
  assert (Hi : (Z.to_nat (Z.shiftr c 3) < length bm)%nat) by (rewrite Z.shiftr_div_pow2 by lia; change (2 ^ 3) with 8; lia).
  destruct (f x y); cbn [bind].
  - rewrite (aget_ok _ 0 Hi). cbn [bind]. rewrite (aset_ok _ _ Hi). cbn [bind]. rewrite IH by (rewrite ?length_upd; lia). do 2 f_equal. lia.
  - rewrite IH by lia. do 2 f_equal. lia.
Qed.

Theorem simple_calls S size (fill : callback S bool) s l : 0 <= size < 2 ^ 32 -> row_by_row size size l ->
  simple_by size fill s = (let* t := ask fill s l in let* g := simple_from_func size (answer_at size (snd t) false) in Ok (g, fst t)).
Proof.
  intros Hs R. rewrite (rows_places size size l) by (lia || exact R). unfold simple_by, simple_from_func. replace (size * size <? 2 ^ 64) with true by (symmetry; apply Z.ltb_lt; nia). cbn [assert_ bind]. cbv zeta.
  assert (L : Z.of_nat (length (places size size)) = size * size) by (rewrite places_length by lia; nia).
  assert (Lb : 0 + Z.of_nat (length (places size size)) <= 8 * Z.of_nat (length (repeat 0 (Z.to_nat ((size * size + 7) / 8))))) by (rewrite L, repeat_length; assert (0 <= size * size) by nia; lia).
  rewrite (for_places _ _ size size (fun x y t => let '(s, bm, c) := t in let* r := fill s x y in let '(s, b) := r in
    let* bm := (if b : bool then let* old := aget bm (Z.to_nat (Z.shiftr c 3)) in aset bm (Z.to_nat (Z.shiftr c 3)) (Z.lor old (Z.shiftl 1 (Z.land c 7))) else Ok bm) in Ok (s, bm, c + 1))).
  rewrite simple_loop by (lia || exact Lb). destruct (ask fill s (places size size)) as [[s' bs]|[]| |] eqn:E; cbn [bind fst snd]; try reflexivity.
  rewrite (for_places _ _ size size (fun x y '(bm, c) =>
    let* bm := (if answer_at size bs false x y then let* old := aget bm (Z.to_nat (Z.shiftr c 3)) in aset bm (Z.to_nat (Z.shiftr c 3)) (Z.lor old (Z.shiftl 1 (Z.land c 7))) else Ok bm) in Ok (bm, c + 1))).
  rewrite pure_loop by (lia || exact Lb). cbn [bind]. rewrite answers_back by (lia || exact (ask_length _ _ _ _ _ _ _ E)). reflexivity.
Qed.

Theorem simple_calls_too_big S size (fill : callback S bool) s : 2 ^ 32 <= size -> simple_by size fill s = Panic.
Proof. intros Hs. unfold simple_by. replace (size * size <? 2 ^ 64) with false by (symmetry; apply Z.ltb_ge; nia). reflexivity. Qed.

(** * Every place once *)

Theorem order_once w h : 0 <= w -> 0 <= h -> exists l, row_by_row w h l /\ (forall l', row_by_row w h l' -> l' = l)
  /\ NoDup l /\ forall x y, In (x, y) l <-> 0 <= x < w /\ 0 <= y < h.
Proof.
  intros Hw Hh. exists (places w h). split; [apply places_rows; assumption|]. split; [intros l' R; apply rows_places; assumption|]. split.
  - destruct (places_rows w h Hw Hh) as (L & A). apply NoDup_nth_error. intros i j Hi E. assert (Hi' : 0 <= Z.of_nat i < w * h) by lia. pose proof (A _ Hi') as Ei. rewrite Nat2Z.id in Ei. rewrite Ei in E.
    assert (Hj : (j < length (places w h))%nat) by (apply nth_error_Some; congruence). assert (Hj' : 0 <= Z.of_nat j < w * h) by lia. pose proof (A _ Hj') as Ej. rewrite Nat2Z.id in Ej. rewrite Ej in E. injection E as E1 E2.
    assert (0 < w) by nia. pose proof (Z.div_mod (Z.of_nat i) w ltac:(lia)) as D1. pose proof (Z.div_mod (Z.of_nat j) w ltac:(lia)) as D2. rewrite E1, E2 in D1. lia.
  - intros x y. unfold places. rewrite in_flat_map. split.
    + intros (y' & Hy & Hx). apply in_map_iff in Hx as (x' & E & Hx). injection E as -> ->. apply in_zrange in Hy, Hx. lia.
    + intros [Hx Hy]. exists y. split; [apply in_zrange; lia|]. apply in_map_iff. exists x. split; [reflexivity|]. apply in_zrange. lia.
Qed.

(** Functions that remember nothing. *)
Theorem pure_calls S w h (f1 : Z -> Z -> bool) (f2 : Z -> Z -> Z) (s : S) :
  bitmap_by w h (fun s x y => Ok (s, f1 x y)) s = (let* p := prepare_from_bitmap w h f1 in Ok (p, s))
  /\ greyscale_by w h (fun s x y => Ok (s, f2 x y)) s = (let* p := prepare_from_greyscale w h f2 in Ok (p, s)).
Proof.
  unfold bitmap_by, greyscale_by, prepare_from_bitmap, prepare_from_greyscale. rewrite !fill_ask, !ask_pure. cbn [bind fst snd]. rewrite !collect_places, map_id, map_map. split; destruct (usz (w * h)); cbn [bind]; reflexivity.
Qed.

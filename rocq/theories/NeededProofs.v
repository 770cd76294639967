(** Decoding looks at the modules of the codewords and of the format information, and at no others. *)
From Verif Require Import Base Lib ModelDecode SpecNeeded SpecPayload FormatProofs GridProofs EncodeProofs EndToEnd SymbolProofs RawProofs ExtProofs SpecQR.
From Coq Require Import ZifyBool.
Open Scope Z_scope.
Set Bullet Behavior "Strict Subproofs".

Lemma existsb_swap {A B} (f : A -> B -> bool) l m : existsb (fun a => existsb (fun b => f a b) m) l = existsb (fun b => existsb (fun a => f a b) l) m.
Proof.
  apply eq_true_iff_eq. rewrite !existsb_exists. split.
  - intros (a & Ha & H). apply existsb_exists in H. destruct H as (b & Hb & H). exists b. split; [exact Hb|]. apply existsb_exists. eauto.
  - intros (b & Hb & H). apply existsb_exists in H. destruct H as (a & Ha & H). exists a. split; [exact Ha|]. apply existsb_exists. eauto.
Qed.

Lemma existsb_eq {A} (f g : A -> bool) l : (forall a, f a = g a) -> existsb f l = existsb g l.
Proof. intros H. induction l as [|a l IH]; cbn [existsb]; [reflexivity|]. rewrite H, IH. reflexivity. Qed.

Lemma alignment_sym v y x : alignment_module v y x = alignment_module v x y.
Proof.
  unfold alignment_module. cbn zeta. rewrite existsb_swap. apply existsb_eq. intros a. apply existsb_eq. intros b. unfold in_rect. lia.
Qed.

Lemma function_sym v y x : function_module v y x = function_module v x y.
Proof. unfold function_module. rewrite (alignment_sym v y x). unfold finder_module, timing_module, format_module, version_module, in_rect. cbn zeta. lia. Qed.

Lemma needed_sym v y x : needed v y x = needed v x y.
Proof. unfold needed. rewrite (function_sym v y x). unfold format_module, timing_module. cbn zeta. lia. Qed.

Section Agree.
Context (v : Z) (g g' : BitGrid) (Hv : 1 <= v <= 40) (N : v <> 21) (S : agree_where_needed v g g').

Lemma size_9 : 21 <= symbol_size v.
Proof using Hv N. unfold symbol_size. lia. Qed.

Lemma read_cell_agree meta rm y x ds : md_version meta = v -> 0 <= y < symbol_size v -> 0 <= x < symbol_size v ->
  read_cell g meta rm y x ds = read_cell g' meta rm y x ds.
Proof using Hv N S.
  intros M Hy Hx. unfold read_cell. rewrite M, (reserved_standard v y x Hv N Hy Hx). cbn [bind].
  destruct (function_module v y x) eqn:F; cbn [negb]; [reflexivity|].
  unfold read_bit. destruct S as (_ & _ & B). rewrite (B y x Hy Hx); [reflexivity|]. unfold needed. rewrite F. reflexivity.
Qed.

Lemma read_loop_agree meta rm fuel : md_version meta = v -> forall y x neg ds, 0 <= y < symbol_size v -> x < symbol_size v ->
  read_data_loop fuel g meta rm y x neg ds = read_data_loop fuel g' meta rm y x neg ds.
Proof using Hv N S.
  intros M. destruct S as (Z0 & Z1 & B). induction fuel as [|fuel IH]; intros y x neg ds Hy Hx; cbn [read_data_loop]; [reflexivity|].
  destruct (Z.ltb_spec 0 x) as [P|P]; [|reflexivity]. set (x' := if x =? 6 then x - 1 else x).
  assert (Hx' : 1 <= x' < symbol_size v) by (unfold x'; destruct (Z.eqb_spec x 6); lia).
  rewrite (read_cell_agree meta rm y x' ds M Hy) by lia. apply bind_ext. intros ds1 _.
  rewrite (read_cell_agree meta rm y (x' - 1) ds1 M Hy) by lia. apply bind_ext. intros ds2 _. rewrite Z0, Z1.
  destruct (Z.eqb_spec y 0), neg, (Z.eqb_spec y (symbol_size v - 1)); cbn [andb negb]; apply IH; lia.
Qed.

Lemma read_data_agree meta rm : md_version meta = v -> read_data g meta rm = read_data g' meta rm.
Proof using Hv N S.
  intros M. pose proof size_9 as H9. unfold read_data. destruct S as (Z0 & Z1 & B). rewrite Z0, Z1. unfold usub.
  replace (1 <=? symbol_size v) with true by lia. cbn [bind]. apply read_loop_agree; [exact M|lia|lia].
Qed.

Lemma format_needed y x : format_module v y x = true -> timing_module y x = false -> needed v y x = true.
Proof using. intros H T. unfold needed. rewrite H, T. cbn. apply orb_true_r. Qed.

Lemma read_format_agree : read_format g = read_format g'.
Proof using Hv N S.
  pose proof size_9 as H9. destruct S as (Z0 & Z1 & B). unfold read_format.
  assert (E1 : read_format_first g = read_format_first g').
  { unfold read_format_first. f_equal. apply for_each_ext. intros i f Hi. apply in_rev in Hi. unfold range in Hi. apply in_seq in Hi.
    assert (C : exists y x, aget (E := deqr_error) YS i = Ok y /\ aget (E := deqr_error) XS i = Ok x
                  /\ 0 <= y <= 8 /\ 0 <= x <= 8 /\ (y = 8 \/ x = 8) /\ y <> 6 /\ x <> 6).
    { do 15 (destruct i as [|i]; [do 2 eexists; split; [reflexivity|]; split; [reflexivity|]; lia|]). lia. }
    destruct C as (y & x & -> & -> & Hy & Hx & O & Ny & Nx). cbn [bind].
    rewrite (B y x); [reflexivity|lia|lia|]. apply format_needed; unfold format_module, timing_module; cbn zeta; lia. }
  assert (E2 : read_format_second g = read_format_second g').
  { unfold read_format_second. rewrite Z0, Z1.
    rewrite (for_each_ext (zrange 0 7) _ (fun i format => let* s1 := usub (symbol_size v) 1 in let* y := usub s1 i in let* b := g_bit g' y 8 in Ok (push_format_bit format b))).
    - apply bind_ext. intros f _. f_equal. apply for_each_ext. intros i f' Hi. apply in_zrange in Hi. unfold usub. replace (8 <=? symbol_size v) with true by lia. cbn [bind].
      rewrite (B 8 (symbol_size v - 8 + i)); [reflexivity|lia|lia|]. apply format_needed; unfold format_module, timing_module; cbn zeta; lia.
    - intros i f Hi. apply in_zrange in Hi. unfold usub. replace (1 <=? symbol_size v) with true by lia. cbn [bind]. replace (i <=? symbol_size v - 1) with true by lia. cbn [bind].
      rewrite (B (symbol_size v - 1 - i) 8); [reflexivity|lia|lia|]. apply format_needed; unfold format_module, timing_module; cbn zeta; lia. }
  rewrite E1, E2, Z0, Z1. reflexivity.
Qed.

Lemma read_format_version meta : read_format g = Ok meta -> md_version meta = v.
Proof using Hv N S.
  destruct S as (Z0 & _). unfold read_format. rewrite Z0, (version_of_symbol v Hv). cbn [bind].
  destruct (read_format_first g); cbn [bind]; try discriminate.
  match goal with |- (let* _ := ?m in _) = _ -> _ => destruct m; cbn [bind]; try discriminate end.
  intros H. injection H as <-. reflexivity.
Qed.

Lemma get_raw_agree rm : get_raw g rm = get_raw g' rm.
Proof using Hv N S.
  unfold get_raw. rewrite <- read_format_agree. apply bind_ext. intros meta E. rewrite (read_data_agree meta rm (read_format_version meta E)). reflexivity.
Qed.

Lemma decode_inner_agree : decode_inner g = decode_inner g'.
Proof using Hv N S. unfold decode_inner. rewrite get_raw_agree. reflexivity. Qed.
End Agree.

Lemma agree_mirrored v g g' : agree_where_needed v g g' -> agree_where_needed v (MirroredGrid g) (MirroredGrid g').
Proof.
  intros (Z0 & Z1 & B). split; [exact Z0|]. split; [exact Z1|]. cbn [g_bit MirroredGrid]. intros y x Hy Hx H. apply B; [exact Hx|exact Hy|]. rewrite needed_sym. exact H.
Qed.

Theorem decode_agree v g g' : 1 <= v <= 40 -> v <> 21 -> agree_where_needed v g g' ->
  (forall W (wr : W -> list Z -> W * bool) w, grid_decode_to wr g w = grid_decode_to wr g' w)
  /\ grid_decode g = grid_decode g' /\ grid_get_raw_data g = grid_get_raw_data g'.
Proof.
  intros Hv N S. assert (D : forall W (wr : W -> list Z -> W * bool) w, grid_decode_to wr g w = grid_decode_to wr g' w).
  { intros W wr w. unfold grid_decode_to, decode. rewrite (decode_inner_agree v g g' Hv N S), (decode_inner_agree v _ _ Hv N (agree_mirrored v g g' S)). reflexivity. }
  split; [exact D|]. split; [|apply (get_raw_agree v); assumption]. unfold grid_decode. rewrite D. reflexivity.
Qed.

Theorem never_asked v g : 1 <= v <= 40 -> v <> 21 -> g_size g = symbol_size v ->
  (forall W (wr : W -> list Z -> W * bool) w, grid_decode_to wr (only_needed v g) w = grid_decode_to wr g w)
  /\ grid_decode (only_needed v g) = grid_decode g /\ grid_get_raw_data (only_needed v g) = grid_get_raw_data g.
Proof.
  intros Hv N E. apply (decode_agree v); [exact Hv|exact N|]. split; [exact E|]. split; [exact E|].
  intros y x _ _ H. cbn [g_bit only_needed]. rewrite H. reflexivity.
Qed.

Theorem repainted_decode v sym other g : 1 <= v <= 40 -> v <> 21 -> g_size g = symbol_size v -> readable g (repainted v sym other) ->
  grid_decode g = grid_decode (mkGrid (symbol_size v) (fun y x => Ok (sym y x)))
  /\ grid_get_raw_data g = grid_get_raw_data (mkGrid (symbol_size v) (fun y x => Ok (sym y x))).
Proof.
  intros Hv N E R. apply (decode_agree v g _ Hv N). split; [exact E|]. split; [reflexivity|].
  intros y x Hy Hx H. cbn [g_bit]. rewrite R by lia. unfold repainted. rewrite H. reflexivity.
Qed.

(** Every module of the codewords has a bit of its own in the raw data. *)
Theorem data_matter v sym sym' g g' meta meta' rd rd' y x : 1 <= v <= 40 -> v <> 21 ->
  readable g sym -> g_size g = symbol_size v -> readable g' sym' -> g_size g' = symbol_size v ->
  grid_get_raw_data g = Ok (meta, rd) -> grid_get_raw_data g' = Ok (meta', rd') ->
  0 <= y < symbol_size v -> 0 <= x < symbol_size v -> function_module v y x = false -> sym y x <> sym' y x -> raw_bits rd <> raw_bits rd'.
Proof.
  intros Hv N R Z0 R' Z1 E E' Hy Hx F D H.
  rewrite (raw_data_modules g sym v meta rd R Z0 Hv N E), (raw_data_modules g' sym' v meta' rd' R' Z1 Hv N E') in H.
  apply D. pose proof (proj2 (data_modules_iff v y x Hv) (conj Hy (conj Hx F))) as I.
  exact (ext_in_map H (y, x) I).
Qed.

(** Every module of the format information is asked for when the others say nothing. *)
Definition strip (s : Z) : list Z := zrange 0 9 ++ zrange (s - 8) s.
Definition format_check (v : Z) : bool :=
  forallb (fun t => let p (y x : Z) := timing_module y x || match grid_decode (blank_except v y x) with Panic => true | _ => false end in p 8 t && p t 8)
    (strip (symbol_size v)).

Lemma format_checked : forallb format_check (zrange 1 41) = true.
Proof. vm_compute. reflexivity. Qed.

Theorem format_matter v y x : 1 <= v <= 40 -> 0 <= y < symbol_size v -> 0 <= x < symbol_size v ->
  format_module v y x = true -> timing_module y x = false -> grid_decode (blank_except v y x) = Panic.
Proof.
  intros Hv Hy Hx F T. pose proof format_checked as C. rewrite forallb_forall in C. specialize (C v ltac:(apply in_zrange; lia)).
  unfold format_check in C. rewrite forallb_forall in C.
  assert (W : forall a, 0 <= a < symbol_size v -> (a <? 9) || (symbol_size v - 8 <=? a) = true -> In a (strip (symbol_size v))).
  { intros a Ha H. unfold strip. apply in_app_iff. rewrite !in_zrange. lia. }
  unfold format_module in F. cbn zeta in F. apply orb_true_iff in F.
  assert (X : timing_module y x || match grid_decode (blank_except v y x) with Panic => true | _ => false end = true).
  { destruct F as [F|F]; apply andb_true_iff in F; destruct F as [F1 F2]; apply Z.eqb_eq in F1; subst.
    - specialize (C x (W x Hx F2)). apply andb_true_iff in C. exact (proj1 C).
    - specialize (C y (W y Hy F2)). apply andb_true_iff in C. exact (proj2 C). }
  rewrite T in X. cbn [orb] in X. destruct (grid_decode (blank_except v y x)); try discriminate X. reflexivity.
Qed.

(** The mirror image of a symbol: what its format information says, and the sheets that show some. *)
From Coq Require Import SpecFloat Permutation.
From Verif Require Import Base Lib VersionDb ModelGF ModelRS ModelDecode ModelImage ModelGeometry ModelDetect ModelIdentify SpecPayload SpecImage SpecThreshold SpecFinder
  SpecPicture SpecSheet SpecReading SpecMirror FormatProofs EndToEnd EncodeProofs LayoutProofs EccDb EccProofs EccStream RawProofs GridProofs SymbolProofs ReadingProofs PictureProofs SheetProofs SpecQR.
From Coq Require Import ZifyBool ZifyNat.
Open Scope Z_scope.
Set Bullet Behavior "Strict Subproofs".

(** The first copy lies symmetrically about the diagonal: its mirror image is the copy backwards. *)
Lemma mirrored_copy sym : format_read format_module_1 (mirrored sym) = rev (format_read format_module_1 sym).
Proof. reflexivity. Qed.

(** Every format word read backwards is taken for another one. *)
Definition backwards (e : level) (mask : Z) : Z := value_of (format_bits (format_word e mask)).

Definition all_formats : list (level * Z) := flat_map (fun e => map (fun k => (e, k)) (zrange 0 8)) [EcL; EcM; EcQ; EcH].
Definition other (e : level) (mask : Z) (f : level * Z) : bool :=
  correctableb (Z.lxor (backwards e mask) (format_word (fst f) (snd f))) && negb ((level_bits (fst f) =? level_bits e) && (snd f =? mask)).

Lemma all_backwards : forallb (fun f => existsb (other (fst f) (snd f)) all_formats) all_formats = true.
Proof. vm_compute. reflexivity. Qed.

Lemma in_formats e mask : In (e, mask) all_formats <-> 0 <= mask < 8.
Proof.
  unfold all_formats. rewrite in_flat_map. split.
  - intros (e' & _ & H). apply in_map_iff in H as (k & Q & H). injection Q as _ <-. apply in_zrange in H. lia.
  - intros H. exists e. split; [destruct e; cbn; auto|]. apply in_map. apply in_zrange. lia.
Qed.

Lemma sweep_formats (P : level -> Z -> level * Z -> bool) : forallb (fun f => existsb (P (fst f) (snd f)) all_formats) all_formats = true ->
  forall e mask, 0 <= mask < 8 -> exists e' mask', 0 <= mask' < 8 /\ P e mask (e', mask') = true.
Proof.
  intros A e mask Hm. rewrite forallb_forall in A. specialize (A (e, mask) (proj2 (in_formats e mask) Hm)).
  apply existsb_exists in A as ([e' mask'] & Hi & A). apply in_formats in Hi. exists e', mask'. split; [exact Hi|exact A].
Qed.

Lemma other_spec e mask e' mask' : other e mask (e', mask') = true -> (e', mask') <> (e, mask) /\ correctable (backwards e mask) (format_word e' mask').
Proof.
  unfold other. cbn [fst snd]. generalize (backwards e mask) (format_word e' mask'). intros a b H. apply andb_prop in H as [A1 A2].
  split; [|apply correctableb_iff; exact A1]. intros Q. injection Q as -> ->. rewrite !Z.eqb_refl in A2. discriminate.
Qed.

Lemma backwards_other e mask : 0 <= mask < 8 -> exists e' mask', 0 <= mask' < 8 /\ (e', mask') <> (e, mask) /\ correctable (backwards e mask) (format_word e' mask').
Proof.
  intros Hm. destruct (sweep_formats other all_backwards e mask Hm) as (e' & mask' & Hi & A). exists e', mask'. split; [exact Hi|]. apply other_spec. exact A.
Qed.

Lemma mirrored_says sym e mask : 0 <= mask < 8 -> format_read format_module_1 sym = format_bits (format_word e mask) ->
  exists e' mask', (e', mask') <> (e, mask) /\ copy_says format_module_1 (mirrored sym) e' mask'.
Proof.
  intros Hm F. destruct (backwards_other e mask Hm) as (e' & mask' & Hm' & N & C). exists e', mask'. split; [exact N|]. split; [exact Hm'|].
  replace (copy_word format_module_1 (mirrored sym)) with (backwards e mask); [exact C|].
  unfold copy_word, backwards. rewrite mirrored_copy, rev_involutive, F. reflexivity.
Qed.

Theorem mirrored_format g sym v e mask : readable g (mirrored sym) -> g_size g = symbol_size v -> 1 <= v <= 40 -> 0 <= mask < 8 ->
  format_read format_module_1 sym = format_bits (format_word e mask) ->
  exists e' mask' rd, (e', mask') <> (e, mask) /\ copy_says format_module_1 (mirrored sym) e' mask'
    /\ grid_get_raw_data g = Ok (mkMeta v (level_bits e') mask', rd).
Proof.
  intros Hr Hs Hv Hm F. destruct (mirrored_says sym e mask Hm F) as (e' & mask' & N & C). exists e', mask'.
  assert (H9 : 9 <= g_size g) by (rewrite Hs; unfold symbol_size; lia).
  assert (E : read_format g = Ok (mkMeta v (level_bits e') mask')).
  { apply (read_format_first_copy g (mirrored sym)); [exact Hr|exact H9|rewrite Hs; apply version_of_symbol, Hv|apply C|apply C]. }
  destruct (read_data_ok g (mirrored sym) (mkMeta v (level_bits e') mask') false Hr) as (rd & Erd & _); [unfold symbol_size in Hs; lia|cbn [md_version]; lia|apply C|].
  exists rd. split; [exact N|]. split; [exact C|]. unfold grid_get_raw_data, get_raw. rewrite E. cbn [bind]. rewrite Erd. reflexivity.
Qed.

(** Decoding the mirror image of a symbol of a message: a reading with another format, or the message. *)
Theorem mirrored_reading g sym v e mask msg : readable g (mirrored sym) -> g_size g = symbol_size v -> 1 <= v <= 40 -> v <> 21 -> 0 <= mask < 8 ->
  message_ok v msg -> fits v e msg -> is_symbol v e mask msg sym ->
  (exists e' mask' data, (e', mask') <> (e, mask) /\ reads v (mirrored sym) (Data e' mask' data) /\ ReadingProofs.answers g v e' mask' data)
  \/ (reads v (mirrored sym) NoData /\ writes_message g (message_bytes msg) (mkMeta v (level_bits e) mask)).
Proof.
  intros Hr Hs Hv N21 Hm Hok Hfit Hsym. destruct (mirrored_says sym e mask Hm (proj1 (proj2 Hsym))) as (e' & mask' & N & C).
  destruct (inner_reading g (mirrored sym) v Hr Hs Hv N21) as (o & Ho & Eo).
  inversion Ho as [e1 m1 c F B Q|[F _] Q|e1 m1 i F Hi B Q]; subst o.
  - left. destruct (format_says_unique _ _ _ _ _ _ F (first_copy _ _ _ _ C)) as [-> ->]. exists e', mask', (concat (map (fun i => firstn (block_data v e' i) (c i)) (seq 0 (num_blocks v e')))). split; [exact N|]. split; [exact Ho|].
    destruct Eo as (ds & Eo & Hat). exact (answers_stream g v e' mask' ds _ (or_introl Eo) Hat).
  - exfalso. exact (F e' mask' C).
  - right. split; [exact Ho|]. apply (mirrored_symbol g sym); try assumption. exists DataEcc. exact Eo.
Qed.

(** * Sheets *)

(** The first reading of whatever grid shows the mark gives nothing. *)
Definition first_fails (t : print) : Prop :=
  forall g, g_size g = symbol_size (mk_v (pr_mark t)) -> readable g (mk_sym (pr_mark t)) -> exists x, decode_inner g = Err x.

Definition either_way (t : print) : Prop := print_ok t \/ mirrored_print_ok t /\ first_fails t.

Lemma either_way_writes t g : 1 <= mk_v (pr_mark t) <= 40 -> either_way t -> g_size g = symbol_size (mk_v (pr_mark t)) -> readable g (mk_sym (pr_mark t)) ->
  writes_message g (message_bytes (pr_text t)) (mkMeta (mk_v (pr_mark t)) (level_bits (pr_level t)) (pr_mask t)).
Proof.
  intros Hv [(Hm & Hok & Hf & Hs)|[(Hm & Hok & Hf & Hs) Ff]] Sz R.
  - exact (symbol_writes _ _ _ _ _ Hv Hm Hok Hf Hs _ Sz R).
  - apply (mirrored_symbol g (mirrored (mk_sym (pr_mark t)))); try assumption. apply Ff; assumption.
Qed.

Lemma scans_either_way {Srt : Sorter spec_float} p ts : finds_sheet p (map pr_mark ts) -> (forall t, In t ts -> 1 <= mk_v (pr_mark t) <= 40 /\ either_way t) -> scans_sheet p ts.
Proof.
  intros (found & ls & p' & E & Pm & Od & Fl) Ok_. apply Permutation_sym, Permutation_map_inv in Pm as (found' & -> & Pm).
  exists found', ls, p'. split; [exact E|]. split; [exact Pm|]. split; [exact (ordpairs_map _ _ pr_mark _ _ Od)|].
  assert (InT : forall t, In t found' -> In t ts) by (intros k; apply Permutation_in; apply Permutation_sym; exact Pm).
  clear E Pm Od. remember (map pr_mark found') as ms eqn:Em. revert found' Em InT. induction Fl as [|k l ms ls (B & S & R) Fl IH]; intros [|t found'] Em InT; try discriminate; [constructor|].
  cbn [map] in Em. injection Em as -> ->. constructor.
  - cbv zeta. split; [exact B|]. destruct (Ok_ t (InT t ltac:(left; reflexivity))) as (Hv & Hok).
    pose proof (either_way_writes t _ Hv Hok S R) as H. unfold decodes_print. cbv zeta. split; [exact H|].
    destruct (writes_message_vec _ _ _ H) as [H1 H2]. split; [exact H1|]. rewrite H2. split; intros Hu.
    + apply utf8_valid_iff in Hu. rewrite Hu. reflexivity.
    + rewrite <- utf8_valid_iff in Hu. destruct (utf8_valid _); [congruence|reflexivity].
  - apply IH; [reflexivity|]. intros t' H. apply InT. right. exact H.
Qed.

Theorem either_way_bitmap {Srt : Sorter spec_float} w h fill ts : clear_sheet w h (ink fill) (map pr_mark ts) -> (forall t, In t ts -> either_way t) ->
  exists p, prepare_from_bitmap w h fill = Ok p /\ scans_sheet p ts.
Proof.
  intros C H. destruct (sheet_bitmap w h fill _ C) as (p & E & Fs). exists p. split; [exact E|]. apply scans_either_way; [exact Fs|].
  intros t Ht. split; [|apply H; exact Ht]. apply (cs_marks _ _ _ _ (proj1 C)). apply in_map. exact Ht.
Qed.

Theorem either_way_greyscale {Srt : Sorter spec_float} w h fill ts : (forall x y, inside w h (x, y) -> 0 <= fill x y <= 255) -> clear_sheet w h (shade w fill) (map pr_mark ts) -> (forall t, In t ts -> either_way t) ->
  exists p, prepare_from_greyscale w h fill = Ok p /\ scans_sheet p ts.
Proof.
  intros G C H. destruct (sheet_greyscale w h fill _ G C) as (p & E & Fs). exists p. split; [exact E|]. apply scans_either_way; [exact Fs|].
  intros t Ht. split; [|apply H; exact Ht]. apply (cs_marks _ _ _ _ (proj1 C)). apply in_map. exact Ht.
Qed.

(** Two texts in one picture. *)
Lemma scans_one_text {Srt : Sorter spec_float} p bytes bytes' meta meta' : scans_to p bytes meta -> scans_to p bytes' meta' -> bytes' = bytes /\ meta' = meta.
Proof.
  intros (l & p1 & E & _ & H & _) (l' & p1' & E' & _ & H' & _). rewrite E in E'.
  assert (Q : l' = l /\ p1' = p1) by (split; congruence). destruct Q as [-> ->]. rewrite H in H'. split; congruence.
Qed.

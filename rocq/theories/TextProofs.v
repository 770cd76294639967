(** Which messages [Grid::decode] returns as the text they stand for. *)
From Coq Require Import SpecFloat.
From Verif Require Import Base Lib ModelDecode SpecPayload SpecText MessageProofs FormatProofs EndToEnd EncodeProofs GridProofs SymbolProofs SpecQR.
From Coq Require Import ZifyBool ZifyNat.
Ltac Zify.zify_post_hook ::= Z.div_mod_to_equations.
Open Scope Z_scope.
Set Bullet Behavior "Strict Subproofs".

Lemma utf8_app a b : utf8 (a ++ b) = utf8 a ++ utf8 b.
Proof. apply flat_map_app. Qed.

Lemma utf8_longer l : (length l <= length (utf8 l))%nat.
Proof.
  induction l as [|c l IH]; [apply le_n|]. unfold utf8 in *. cbn [flat_map length]. rewrite app_length.
  assert (1 <= length (utf8_of c))%nat by (unfold utf8_of; repeat match goal with |- context [if ?b then _ else _] => destruct b end; cbn [length]; lia). lia.
Qed.

Lemma utf8_ascii l : Forall (fun c => c < 128) l -> utf8 l = l.
Proof.
  induction 1 as [|c l H _ IH]; [reflexivity|]. unfold utf8 in *. cbn [flat_map]. unfold utf8_of at 1. replace (c <? 128) with true by lia. cbn [app]. f_equal. exact IH.
Qed.

Lemma utf8_short l : length l = length (utf8 l) -> Forall (fun c => c < 128) l.
Proof.
  induction l as [|c l IH]; [constructor|]. intros E. pose proof (utf8_longer l) as L. unfold utf8 in *. cbn [flat_map length] in E. rewrite app_length in E.
  destruct (c <? 128) eqn:C.
  - constructor; [lia|]. apply IH. unfold utf8_of in E at 1. rewrite C in E. cbn [length] in E. lia.
  - exfalso. assert (2 <= length (utf8_of c))%nat by (unfold utf8_of; rewrite C; repeat match goal with |- context [if ?b then _ else _] => destruct b end; cbn [length]; lia). lia.
Qed.

Lemma app_same_length {A} (a a' b b' : list A) : length a = length a' -> a ++ b = a' ++ b' -> a = a' /\ b = b'.
Proof.
  revert a'. induction a as [|x a IH]; intros [|x' a'] L E; cbn in *; try discriminate; [auto|].
  injection E as -> E. destruct (IH a' ltac:(lia) E) as [-> ->]. auto.
Qed.

Lemma digits_ascii ds : Forall (fun d => 0 <= d < 10) ds -> Forall (fun c => 0 <= c < 128) (map (fun d => 48 + d) ds).
Proof. intros H. apply Forall_map. eapply Forall_impl; [|exact H]. cbv beta. intros. lia. Qed.

Lemma alphanumeric_ascii cs : Forall (fun c => 0 <= c < 45) cs -> Forall (fun c => 0 <= c < 128) (map alphanumeric_char cs).
Proof.
  intros H. apply Forall_map. eapply Forall_impl; [|exact H]. cbv beta. intros c Hc.
  assert (A : forallb (fun c => (0 <=? alphanumeric_char c) && (alphanumeric_char c <? 128)) (map Z.of_nat (seq 0 45)) = true) by (vm_compute; reflexivity).
  rewrite forallb_forall in A. assert (In c (map Z.of_nat (seq 0 45))). { apply in_map_iff. exists (Z.to_nat c). split; [lia|]. apply in_seq. lia. }
  specialize (A c H0). lia.
Qed.

Lemma ascii_weak l : Forall (fun c => 0 <= c < 128) l -> Forall (fun c => c < 128) l.
Proof. apply Forall_impl. intros. lia. Qed.

Section Jis.
Variable jis : Z -> Z.
Hypothesis jis_ok : forall c, sjis_char c -> code_point (jis c) /\ 128 <= jis c.

Lemma kanji_longer cs : Forall sjis_char cs -> (length (flat_map (fun c => [c / 256; c mod 256]%Z) cs) <= length (utf8 (map jis cs)))%nat.
Proof using jis_ok.
  induction 1 as [|c cs H _ IH]; [apply le_n|]. unfold utf8 in *. cbn [flat_map map]. rewrite !app_length. cbn [length].
  destruct (jis_ok c H) as [_ J]. assert (2 <= length (utf8_of (jis c)))%nat; [|lia].
  unfold utf8_of. replace (jis c <? 128) with false by lia. repeat match goal with |- context [if ?b then _ else _] => destruct b end; cbn [length]; lia.
Qed.

Lemma means_longer v s m t : message_ok v m -> means jis s m t -> (length (message_bytes m) <= length (utf8 t))%nat.
Proof using jis_ok.
  intros O M. revert O. induction M; intros O; try (apply le_n); unfold message_bytes in *; cbn [flat_map segment_bytes]; rewrite ?utf8_app, ?app_length;
    pose proof (Forall_inv O) as [_ S]; pose proof (Forall_inv_tail O) as O'; specialize (IHM O'); cbn beta iota in S.
  - pose proof (utf8_longer (map (fun d => 48 + d) ds)). lia.
  - pose proof (utf8_longer (map alphanumeric_char cs)). lia.
  - pose proof (utf8_longer bs). lia.
  - lia.
  - pose proof (kanji_longer cs S). lia.
  - exact IHM.
  - exact IHM.
Qed.

Theorem same_plain v s m t : message_ok v m -> means jis s m t -> message_bytes m = utf8 t -> plain_text s m.
Proof using jis_ok.
  intros O M. revert O. induction M; intros O E; [exact I| | | | | | |]; unfold message_bytes in E; cbn [flat_map segment_bytes] in E; fold (message_bytes m) in E; rewrite ?utf8_app in E;
    pose proof (Forall_inv O) as [_ S]; pose proof (Forall_inv_tail O) as O'; specialize (IHM O'); cbn beta iota in S; pose proof (means_longer v _ _ _ O' M) as L; cbn [plain_text].
  - rewrite (utf8_ascii (map _ ds)) in E by (apply ascii_weak, digits_ascii, S). apply app_inv_head in E. exact (IHM E).
  - rewrite (utf8_ascii (map _ cs)) in E by (apply ascii_weak, alphanumeric_ascii, S). apply app_inv_head in E. exact (IHM E).
  - pose proof (utf8_longer bs) as L'. pose proof (f_equal (@length Z) E) as Le. rewrite !app_length in Le.
    assert (A : Forall (fun c => c < 128) bs) by (apply utf8_short; lia). split; [right; exact A|].
    rewrite (utf8_ascii bs A) in E. apply app_inv_head in E. exact (IHM E).
  - apply app_inv_head in E. split; [left; reflexivity|exact (IHM E)].
  - pose proof (kanji_longer cs S) as L'. pose proof (f_equal (@length Z) E) as Le. rewrite !app_length in Le.
    assert (EL : length (flat_map (fun c => [c / 256; c mod 256]) cs) = length (utf8 (map jis cs))) by lia.
    destruct (app_same_length _ _ _ _ EL E) as [E1 E2]. split; [|exact (IHM E2)].
    destruct cs as [|c cs]; [reflexivity|]. exfalso. clear IHM E E2 M O O' L.
    pose proof (Forall_inv S) as Sc. pose proof (kanji_longer cs (Forall_inv_tail S)) as Ls. destruct (jis_ok c Sc) as [_ J].
    unfold utf8 in *. cbn [flat_map map app] in E1. pose proof (f_equal (@length Z) E1) as Lf. rewrite app_length in Lf. cbn [length] in Lf.
    unfold utf8_of at 1 in Lf. unfold utf8_of at 1 in E1. replace (jis c <? 128) with false in * by lia.
    destruct (jis c <? 2048) eqn:C2.
    + cbn [app] in E1. assert (Hd : c / 256 = 192 + jis c / 64) by exact (f_equal (fun l => hd 0 l) E1). destruct Sc as [R _]. clear - Hd R J C2. lia.
    + destruct (jis c <? 65536); cbn [length] in Lf; lia.
  - exact (IHM E).
  - exact (IHM E).
Qed.

Theorem plain_same v s m t : message_ok v m -> means jis s m t -> plain_text s m -> message_bytes m = utf8 t.
Proof using jis_ok.
  intros O M. revert O. induction M; intros O P; [reflexivity| | | | | | |]; unfold message_bytes; cbn [flat_map segment_bytes]; fold (message_bytes m); rewrite ?utf8_app;
    pose proof (Forall_inv O) as [_ S]; pose proof (Forall_inv_tail O) as O'; specialize (IHM O'); cbn beta iota in S; cbn [plain_text] in P.
  - rewrite (utf8_ascii (map _ ds)) by (apply ascii_weak, digits_ascii, S). f_equal. exact (IHM P).
  - rewrite (utf8_ascii (map _ cs)) by (apply ascii_weak, alphanumeric_ascii, S). f_equal. exact (IHM P).
  - destruct P as [[D|A] P]; [discriminate D|]. rewrite (utf8_ascii bs A). f_equal. exact (IHM P).
  - f_equal. exact (IHM (proj2 P)).
  - destruct P as [-> P]. cbn [flat_map map app utf8]. exact (IHM P).
  - exact (IHM P).
  - exact (IHM P).
Qed.

Lemma means_points v s m t : message_ok v m -> means jis s m t -> Forall code_point t.
Proof using jis_ok.
  intros O M. revert O. induction M; intros O; [constructor| | | | | | |]; pose proof (Forall_inv O) as [_ S]; pose proof (Forall_inv_tail O) as O'; specialize (IHM O'); cbn beta iota in S;
    try exact IHM; apply Forall_app; (split; [|exact IHM]).
  - eapply Forall_impl; [|exact (digits_ascii ds S)]. intros c Hc. left. cbv beta in Hc. lia.
  - eapply Forall_impl; [|exact (alphanumeric_ascii cs S)]. intros c Hc. left. cbv beta in Hc. lia.
  - eapply Forall_impl; [|exact S]. intros c Hc. left. unfold is_byte in Hc. lia.
  - assumption.
  - apply Forall_map. eapply Forall_impl; [|exact S]. intros c Hc. apply jis_ok, Hc.
Qed.

(** * Decoding to a string *)
Lemma utf8_text_of t : Forall code_point t -> utf8_text (utf8 t).
Proof. intros H. exists t. split; [exact H|reflexivity]. Qed.

Theorem text_returned code bytes meta v m t : writes_message code bytes meta -> bytes = message_bytes m -> message_ok v m -> means jis Latin1 m t ->
  (grid_decode code = Ok (meta, utf8 t) <-> plain_text Latin1 m).
Proof using jis_ok.
  intros W E O M. destruct (writes_message_vec _ _ _ W) as [_ D]. subst bytes. rewrite D. split.
  - intros R. destruct (utf8_valid (message_bytes m)); [|discriminate R]. injection R as R. exact (same_plain v _ m t O M R).
  - intros P. rewrite (plain_same v _ m t O M P). pose proof (utf8_text_of t (means_points v _ m t O M)) as T. apply utf8_valid_iff in T. rewrite T. reflexivity.
Qed.

Theorem text_lost code meta v m t : writes_message code (message_bytes m) meta -> message_ok v m -> means jis Latin1 m t -> ~ plain_text Latin1 m ->
  grid_decode code = Err EncodingError \/ exists t', t' <> t /\ grid_decode code = Ok (meta, utf8 t').
Proof using jis_ok.
  intros W O M N. destruct (writes_message_vec _ _ _ W) as [_ D]. rewrite D. destruct (utf8_valid (message_bytes m)) eqn:U; [right|left; reflexivity].
  apply utf8_valid_iff in U. destruct U as (t' & _ & Et). exists t'. split; [|rewrite Et; reflexivity].
  intros ->. apply N. exact (same_plain v _ m t O M Et).
Qed.
End Jis.

(** * Kanji *)
Lemma continuation_not_text b l : 128 <= b <= 193 -> utf8_valid (b :: l) = false.
Proof.
  intros H. cbn [utf8_valid]. unfold in_range. replace ((0 <=? b) && (b <=? 127)) with false by lia. destruct l as [|b1 l]; [reflexivity|].
  replace ((194 <=? b) && (b <=? 223)) with false by lia. cbn [andb]. destruct l as [|b2 l]; [reflexivity|].
  match goal with |- (if ?c then _ else _) = _ => replace c with false by lia end. destruct l as [|b3 l]; [reflexivity|].
  match goal with |- (if ?c then _ else _) = _ => replace c with false by lia end. reflexivity.
Qed.

Theorem kanji_refused code meta v before c cs after : writes_message code (message_bytes (before ++ Kanji (c :: cs) :: after)) meta ->
  message_ok v (before ++ Kanji (c :: cs) :: after) -> utf8_text (message_bytes before) -> c <= 40956 -> grid_decode code = Err EncodingError.
Proof.
  intros W O T C. destruct (writes_message_vec _ _ _ W) as [_ D]. rewrite D.
  assert (S : sjis_char c). { apply Forall_app in O as [_ O]. destruct (Forall_inv O) as [_ S]. exact (Forall_inv S). }
  replace (utf8_valid (message_bytes (before ++ Kanji (c :: cs) :: after))) with false; [reflexivity|].
  unfold message_bytes in *. rewrite flat_map_app. cbn [flat_map segment_bytes]. destruct T as (t & Ht & ->).
  symmetry. induction Ht as [|a t Ha _ IH]; cbn [flat_map app].
  - apply continuation_not_text. destruct S as [R _]. lia.
  - rewrite <- app_assoc, utf8_valid_char by exact Ha. exact IH.
Qed.

(** * Symbols *)
Theorem symbol_text jis code sym v e mask m t : (forall c, sjis_char c -> code_point (jis c) /\ 128 <= jis c) ->
  readable code sym -> g_size code = symbol_size v -> 1 <= v <= 40 -> 0 <= mask < 8 -> message_ok v m -> fits v e m -> is_symbol v e mask m sym ->
  means jis Latin1 m t ->
  (grid_decode code = Ok (mkMeta v (level_bits e) mask, utf8 t) <-> plain_text Latin1 m)
  /\ (~ plain_text Latin1 m -> grid_decode code = Err EncodingError
        \/ exists t', t' <> t /\ grid_decode code = Ok (mkMeta v (level_bits e) mask, utf8 t')).
Proof.
  intros J R S V K O F Sy M. pose proof (decode_symbol code sym v e mask m R S V K O F Sy) as W. split.
  - exact (text_returned jis J code _ _ v m t W eq_refl O M).
  - exact (text_lost jis J code _ v m t W O M).
Qed.

Theorem symbol_kanji code sym v e mask before c cs after : let m := before ++ Kanji (c :: cs) :: after in
  readable code sym -> g_size code = symbol_size v -> 1 <= v <= 40 -> 0 <= mask < 8 -> message_ok v m -> fits v e m -> is_symbol v e mask m sym ->
  (exists t, Forall code_point t /\ message_bytes before = utf8 t) -> c <= 40956 -> grid_decode code = Err EncodingError.
Proof.
  intros m R S V K O F Sy T C. pose proof (decode_symbol code sym v e mask m R S V K O F Sy) as W.
  exact (kanji_refused code _ v before c cs after W O T C).
Qed.

(** Two characters of ISO 8859-1, with their designator; the answer is one other character. *)
Definition latin1_message : list segment := [Eci 3; ByteMode [195; 164]].

(** Two characters of Shift JIS; the answer is two other characters. *)
Definition kanji_message : list segment := [Kanji [58552; 39488]].

Theorem wrong_text : forall jis, (forall c, sjis_char c -> code_point (jis c) /\ 128 <= jis c) -> forall m t t',
  (m, t, t') = (latin1_message, [195; 164], [228]) \/ (m, t, t') = (kanji_message, [jis 58552; jis 39488], [19994; 64]) ->
  means jis Latin1 m t /\ t' <> t /\ forall e mask code, 0 <= mask < 8 -> g_size code = 21 -> readable code (encode 1 e mask m) -> grid_decode code = Ok (mkMeta 1 (level_bits e) mask, utf8 t').
Proof.
  intros jis J m t t' H.
  assert (O : message_ok 1 m /\ (length (message_bits 1 m) <= 72)%nat /\ message_bytes m = utf8 t' /\ utf8_valid (utf8 t') = true).
  { destruct H as [H|H]; injection H as -> -> ->; (split; [|split; [apply Nat.leb_le; vm_compute; reflexivity|split; [vm_compute; reflexivity|vm_compute; reflexivity]]]).
    - unfold message_ok, latin1_message, segment_ok, is_byte. repeat constructor; cbn; lia.
    - unfold message_ok, kanji_message, segment_ok, sjis_char. repeat constructor; cbn; lia. }
  destruct O as (O & F & E & U).
  split; [|split].
  - destruct H as [H|H]; injection H as -> -> ->.
    + apply means_eci_latin1. apply (means_latin1 jis [195; 164] [] []). constructor.
    + apply (means_kanji jis Latin1 [58552; 39488] [] []). constructor.
  - destruct H as [H|H]; injection H as -> -> ->; [discriminate|]. intros D. injection D as _ D.
    assert (S : sjis_char 39488) by (split; [left|]; cbn; lia). destruct (J 39488 S). lia.
  - intros e mask code K S R.
    assert (Fe : fits 1 e m). { unfold fits. eapply Nat.le_trans; [exact F|]. apply Nat.leb_le. destruct e; vm_compute; reflexivity. }
    pose proof (decode_symbol code _ 1 e mask m R S ltac:(lia) K O Fe (encode_is_symbol 1 e mask m ltac:(lia) Fe)) as W.
    destruct (writes_message_vec _ _ _ W) as [_ D]. rewrite D, E, U. reflexivity.
Qed.

Lemma some_jis c : sjis_char c -> code_point c /\ 128 <= c.
Proof. intros [R _]. unfold code_point. lia. Qed.

Theorem never_wrong_refuted :
  ~ (forall jis, (forall c, sjis_char c -> code_point (jis c) /\ 128 <= jis c) ->
     forall code sym v e mask m t, readable code sym -> g_size code = symbol_size v -> 1 <= v <= 40 -> 0 <= mask < 8 ->
       message_ok v m -> fits v e m -> is_symbol v e mask m sym -> means jis Latin1 m t ->
       grid_decode code = Ok (mkMeta v (level_bits e) mask, utf8 t) \/ grid_decode code = Err EncodingError).
Proof.
  intros H. destruct (wrong_text (fun c => c) some_jis latin1_message _ _ (or_introl eq_refl)) as (M & N & D).
  assert (O : message_ok 1 latin1_message) by (unfold message_ok, latin1_message, segment_ok, is_byte; repeat constructor; cbn; lia).
  assert (F : fits 1 EcM latin1_message) by (unfold fits; apply Nat.leb_le; vm_compute; reflexivity).
  set (sym := encode 1 EcM 0 latin1_message). set (code := mkGrid 21 (fun y x => Ok (sym y x))).
  assert (R : readable code sym) by (intros y x _ _; reflexivity).
  specialize (D EcM 0 code ltac:(lia) eq_refl R).
  destruct (H (fun c => c) some_jis code sym 1 EcM 0 latin1_message _ R eq_refl ltac:(lia) ltac:(lia) O F (encode_is_symbol 1 EcM 0 _ ltac:(lia) F) M) as [E|E]; rewrite D in E; vm_compute in E; discriminate E.
Qed.

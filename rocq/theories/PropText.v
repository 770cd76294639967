(** Properties of the text that [Grid::decode] returns: C79.
    Every theorem is followed by its assumptions and by a case meeting its hypotheses. *)
From Verif Require Import Base Lib ModelDecode SpecPayload SpecText FormatProofs EndToEnd EncodeProofs GridProofs Refuted SymbolProofs PropSymbol TextProofs SpecQR.
From Coq Require Import ZifyBool.
Open Scope Z_scope.
Set Bullet Behavior "Strict Subproofs".

(** * C79 *)

(** [t] is the text the message stands for by the standard; [jis] is the table of the characters of Shift JIS, of which
    only this much is used: they are beyond ASCII.  The string returned is that text exactly for the messages without
    Kanji whose bytes outside UTF-8 segments are ASCII; for the others it is an error or another text. *)
Theorem C79_text jis code sym v e mask m t : (forall c, sjis_char c -> code_point (jis c) /\ 128 <= jis c) ->
  readable code sym -> g_size code = symbol_size v -> 1 <= v <= 40 -> 0 <= mask < 8 -> message_ok v m -> fits v e m -> is_symbol v e mask m sym ->
  means jis Latin1 m t ->
  (grid_decode code = Ok (mkMeta v (level_bits e) mask, utf8 t) <-> plain_text Latin1 m)
  /\ (~ plain_text Latin1 m -> grid_decode code = Err EncodingError
        \/ exists t', t' <> t /\ grid_decode code = Ok (mkMeta v (level_bits e) mask, utf8 t')).
Proof. exact (symbol_text jis code sym v e mask m t). Qed.
Print Assumptions C79_text.

(** Kanji of the first range (kana and the common characters among them) after any text: an error. *)
Theorem C79_kanji code sym v e mask before c cs after : let m := before ++ Kanji (c :: cs) :: after in
  readable code sym -> g_size code = symbol_size v -> 1 <= v <= 40 -> 0 <= mask < 8 -> message_ok v m -> fits v e m -> is_symbol v e mask m sym ->
  (exists t, Forall code_point t /\ message_bytes before = utf8 t) -> c <= 40956 -> grid_decode code = Err EncodingError.
Proof. exact (symbol_kanji code sym v e mask before c cs after). Qed.
Print Assumptions C79_kanji.

(** That a string returned is always the right one is false. *)
Theorem C79_never_wrong_refuted :
  ~ (forall jis, (forall c, sjis_char c -> code_point (jis c) /\ 128 <= jis c) ->
     forall code sym v e mask m t, readable code sym -> g_size code = symbol_size v -> 1 <= v <= 40 -> 0 <= mask < 8 ->
       message_ok v m -> fits v e m -> is_symbol v e mask m sym -> means jis Latin1 m t ->
       grid_decode code = Ok (mkMeta v (level_bits e) mask, utf8 t) \/ grid_decode code = Err EncodingError).
Proof. exact never_wrong_refuted. Qed.
Print Assumptions C79_never_wrong_refuted.

(** Two such messages, at every level and mask, whatever the table. *)
Theorem C79_wrong_text : forall jis, (forall c, sjis_char c -> code_point (jis c) /\ 128 <= jis c) -> forall m t t',
  (m, t, t') = (latin1_message, [195; 164], [228]) \/ (m, t, t') = (kanji_message, [jis 58552; jis 39488], [19994; 64]) ->
  means jis Latin1 m t /\ t' <> t /\ forall e mask code, 0 <= mask < 8 -> g_size code = 21 -> readable code (encode 1 e mask m) -> grid_decode code = Ok (mkMeta 1 (level_bits e) mask, utf8 t').
Proof. exact wrong_text. Qed.
Print Assumptions C79_wrong_text.

(** A message of all kinds of segments but Kanji: "42 AB", then "ä" in UTF-8, then "ok" in ISO 8859-1. *)
Definition plain_message : list segment := [Numeric [4; 2]; Alphanumeric [36; 10; 11]; Eci 26; ByteMode (utf8 [228]); Eci 3; ByteMode [111; 107]].

Example C79_example : grid_decode (grid_of 21 (encode 1 EcL 2 plain_message)) = Ok (mkMeta 1 1 2, utf8 [52; 50; 32; 65; 66; 228; 111; 107]).
Proof.
  assert (F : fits 1 EcL plain_message) by (unfold fits; apply Nat.leb_le; vm_compute; reflexivity).
  apply (C79_text (fun c => c) (grid_of 21 (encode 1 EcL 2 plain_message)) (encode 1 EcL 2 plain_message) 1 EcL 2 plain_message [52; 50; 32; 65; 66; 228; 111; 107]).
  - exact some_jis.
  - apply grid_of_readable.
  - reflexivity.
  - lia.
  - lia.
  - unfold message_ok, plain_message, segment_ok, is_byte. repeat constructor; cbn; lia.
  - exact F.
  - apply encode_is_symbol; [lia|exact F].
  - apply (means_numeric _ _ [4; 2] _ [32; 65; 66; 228; 111; 107]), (means_alphanumeric _ _ [36; 10; 11] _ [228; 111; 107]), means_eci_utf8,
      (means_utf8 _ [228] _ [111; 107]); [repeat constructor; unfold code_point; lia|].
    apply means_eci_latin1, (means_latin1 _ [111; 107] [] []), means_nil.
  - cbn. repeat split; auto. right. repeat constructor; lia.
Qed.

(** "A" followed by the hiragana 82A0. *)
Example C79_kanji_example : grid_decode (grid_of 21 (encode 1 EcL 2 ([Alphanumeric [10]] ++ [Kanji [33440]]))) = Err EncodingError.
Proof.
  assert (F : fits 1 EcL ([Alphanumeric [10]] ++ [Kanji [33440]])) by (unfold fits; apply Nat.leb_le; vm_compute; reflexivity).
  apply (C79_kanji _ (encode 1 EcL 2 ([Alphanumeric [10]] ++ [Kanji [33440]])) 1 EcL 2 [Alphanumeric [10]] 33440 [] []); try lia.
  - apply grid_of_readable.
  - reflexivity.
  - unfold message_ok, segment_ok, sjis_char. repeat constructor; cbn; lia.
  - exact F.
  - apply encode_is_symbol; [lia|exact F].
  - exists [65]. split; [repeat constructor; unfold code_point; lia|reflexivity].
Qed.

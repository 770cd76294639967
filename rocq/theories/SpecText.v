(** The text a message stands for.

    The modes Numeric and Alphanumeric are ASCII.  The bytes of the mode Byte are characters of ISO 8859-1 unless an
    ECI designator says otherwise; the designators 000003 (ISO 8859-1) and 000026 (UTF-8) are considered here.
    The mode Kanji holds characters of Shift JIS; [jis] gives their Unicode code points.  Independent of the model. *)
From Coq Require Import List ZArith.
From Verif Require Import SpecQR.
Import ListNotations.
Open Scope Z_scope.

(** Unicode code points (without surrogates) and their UTF-8 form. *)
Definition code_point (c : Z) : Prop := 0 <= c <= 55295 \/ 57344 <= c <= 1114111.
Definition utf8_of (c : Z) : list Z :=
  if c <? 128 then [c]
  else if c <? 2048 then [192 + c / 64; 128 + c mod 64]
  else if c <? 65536 then [224 + c / 4096; 128 + c / 64 mod 64; 128 + c mod 64]
  else [240 + c / 262144; 128 + c / 4096 mod 64; 128 + c / 64 mod 64; 128 + c mod 64].
Definition utf8 (t : list Z) : list Z := flat_map utf8_of t.

Inductive charset := Latin1 | Utf8.

Inductive means (jis : Z -> Z) : charset -> list segment -> list Z -> Prop :=
| means_nil s : means jis s [] []
| means_numeric s ds m t : means jis s m t -> means jis s (Numeric ds :: m) (map (fun d => 48 + d) ds ++ t)
| means_alphanumeric s cs m t : means jis s m t -> means jis s (Alphanumeric cs :: m) (map alphanumeric_char cs ++ t)
| means_latin1 bs m t : means jis Latin1 m t -> means jis Latin1 (ByteMode bs :: m) (bs ++ t)
| means_utf8 cs m t : Forall code_point cs -> means jis Utf8 m t -> means jis Utf8 (ByteMode (utf8 cs) :: m) (cs ++ t)
| means_kanji s cs m t : means jis s m t -> means jis s (Kanji cs :: m) (map jis cs ++ t)
| means_eci_latin1 s m t : means jis Latin1 m t -> means jis s (Eci 3 :: m) t
| means_eci_utf8 s m t : means jis Utf8 m t -> means jis s (Eci 26 :: m) t.

(** No Kanji, and no character beyond ASCII in ISO 8859-1. *)
Fixpoint plain_text (s : charset) (m : list segment) : Prop :=
  match m with
  | [] => True
  | Kanji cs :: m => cs = [] /\ plain_text s m
  | ByteMode bs :: m => (s = Utf8 \/ Forall (fun b => b < 128) bs) /\ plain_text s m
  | Eci n :: m => plain_text (if n =? 26 then Utf8 else Latin1) m
  | _ :: m => plain_text s m
  end.

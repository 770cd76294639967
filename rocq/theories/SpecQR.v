(** What a QR Code symbol is: an independent, executable transcription of the parts of
    ISO/IEC 18004 that the properties speak about.  This file imports nothing of the model.

    Bytes, field elements and coordinates are [Z]; counts are [nat]; a symbol is a function from
    row and column to the colour of the module ([true] = dark). *)
From Coq Require Import List ZArith Bool.
Import ListNotations.
Open Scope Z_scope.

(** * Bits *)

(** The [n] low bits of [v], most significant first. *)
Fixpoint bits_of (n : nat) (v : Z) : list bool :=
  match n with
  | O => []
  | S n' => Z.testbit v (Z.of_nat n') :: bits_of n' v
  end.

(** The number written by a list of bits, most significant first. *)
Definition value_of (bs : list bool) : Z := fold_left (fun acc b => 2 * acc + Z.b2z b) bs 0.

(** A list of bytes as bits. *)
Definition bytes_bits (l : list Z) : list bool := flat_map (bits_of 8) l.

Definition is_byte (b : Z) : Prop := 0 <= b < 256.

(** * The field GF(256) of QR codes: polynomials over GF(2) modulo x^8+x^4+x^3+x^2+1 *)

(** Multiplication by x. *)
Definition times_x (a : Z) : Z := if a <? 128 then 2 * a else Z.lxor (2 * a) 285.

(** Product, adding up the shifts of [a] selected by the bits of [b] (least significant first). *)
Fixpoint field_mul_n (n : nat) (a b : Z) : Z :=
  match n with
  | O => 0
  | S n' => Z.lxor (if Z.odd b then a else 0) (field_mul_n n' (times_x a) (Z.div2 b))
  end.
Definition field_mul (a b : Z) : Z := field_mul_n 8 a b.

(** Powers of the primitive element x. *)
Fixpoint alpha_pow (k : nat) : Z :=
  match k with O => 1 | S k' => times_x (alpha_pow k') end.

(** * Reed-Solomon codes: the first byte of a word is its highest coefficient *)

Definition poly_at (c : list Z) (x : Z) : Z :=
  fold_left (fun acc a => Z.lxor (field_mul acc x) a) c 0.

(** The code with [npar] parity bytes: the words vanishing at alpha^0, ..., alpha^(npar-1). *)
Definition rs_codeword (npar : nat) (c : list Z) : Prop :=
  Forall is_byte c /\ forall i, (i < npar)%nat -> poly_at c (alpha_pow i) = 0.

(** Systematic encoder.  Generator polynomial (x - alpha^0) ... (x - alpha^(npar-1)), leading
    coefficient 1 omitted, highest first. *)
Fixpoint zip_xor (a b : list Z) : list Z :=
  match a, b with
  | x :: a', y :: b' => Z.lxor x y :: zip_xor a' b'
  | _, _ => []
  end.
(* g = x^n + t  ->  (x + r) g = x^(n+1) + (t + r x^n) x ... written on the tail [t] *)
Definition gen_step (t : list Z) (r : Z) : list Z :=
  zip_xor (t ++ [0]) (map (field_mul r) (1 :: t)).
Definition generator (npar : nat) : list Z :=
  fold_left gen_step (map alpha_pow (seq 0 npar)) [].
(** Remainder of data * x^npar by the generator. *)
Definition division_step (g : list Z) (r : list Z) (b : Z) : list Z :=
  let f := Z.lxor b (hd 0 r) in zip_xor (tl r ++ [0]) (map (field_mul f) g).
Definition rs_parity (npar : nat) (data : list Z) : list Z :=
  fold_left (division_step (generator npar)) data (repeat 0 npar).

(** Number of positions in which two words differ. *)
Fixpoint distance (a b : list Z) : nat :=
  match a, b with
  | x :: a', y :: b' => Nat.add (if x =? y then O else 1%nat) (distance a' b')
  | _, _ => O
  end.

(** * Symbol geometry *)

Definition symbol_size (v : Z) : Z := 17 + 4 * v.

(** Annex E: row/column coordinates of the centres of the alignment patterns. *)
Definition alignment_table : list (list Z) := [[];
  [];
  [6; 18];
  [6; 22];
  [6; 26];
  [6; 30];
  [6; 34];
  [6; 22; 38];
  [6; 24; 42];
  [6; 26; 46];
  [6; 28; 50];
  [6; 30; 54];
  [6; 32; 58];
  [6; 34; 62];
  [6; 26; 46; 66];
  [6; 26; 48; 70];
  [6; 26; 50; 74];
  [6; 30; 54; 78];
  [6; 30; 56; 82];
  [6; 30; 58; 86];
  [6; 34; 62; 90];
  [6; 28; 50; 72; 94];
  [6; 26; 50; 74; 98];
  [6; 30; 54; 78; 102];
  [6; 28; 54; 80; 106];
  [6; 32; 58; 84; 110];
  [6; 30; 58; 86; 114];
  [6; 34; 62; 90; 118];
  [6; 26; 50; 74; 98; 122];
  [6; 30; 54; 78; 102; 126];
  [6; 26; 52; 78; 104; 130];
  [6; 30; 56; 82; 108; 134];
  [6; 34; 60; 86; 112; 138];
  [6; 30; 58; 86; 114; 142];
  [6; 34; 62; 90; 118; 146];
  [6; 30; 54; 78; 102; 126; 150];
  [6; 24; 50; 76; 102; 128; 154];
  [6; 28; 54; 80; 106; 132; 158];
  [6; 32; 58; 84; 110; 136; 162];
  [6; 26; 54; 82; 110; 138; 166];
  [6; 30; 58; 86; 114; 142; 170]].
Definition alignment_positions (v : Z) : list Z := nth (Z.to_nat v) alignment_table [].

Definition in_rect (y x y0 x0 h w : Z) : bool :=
  (y0 <=? y) && (y <? y0 + h) && (x0 <=? x) && (x <? x0 + w).

(** Finder patterns with their separators. *)
Definition finder_module (v y x : Z) : bool :=
  let s := symbol_size v in
  in_rect y x 0 0 8 8 || in_rect y x 0 (s - 8) 8 8 || in_rect y x (s - 8) 0 8 8.

Definition timing_module (y x : Z) : bool := (y =? 6) || (x =? 6).

(** Format information (both copies) and the dark module. *)
Definition format_module (v y x : Z) : bool :=
  let s := symbol_size v in
  (y =? 8) && ((x <? 9) || (s - 8 <=? x)) || (x =? 8) && ((y <? 9) || (s - 8 <=? y)).

Definition version_module (v y x : Z) : bool :=
  let s := symbol_size v in
  (7 <=? v) && (in_rect y x 0 (s - 11) 6 3 || in_rect y x (s - 11) 0 3 6).

(** Alignment patterns: 5x5 around every pair of coordinates except the three that fall on the
    finder patterns. *)
Definition alignment_module (v y x : Z) : bool :=
  let s := symbol_size v in
  let ps := alignment_positions v in
  existsb (fun cy => existsb (fun cx =>
      negb ((cy =? 6) && (cx =? 6) || (cy =? 6) && (cx =? s - 7) || (cy =? s - 7) && (cx =? 6))
      && in_rect y x (cy - 2) (cx - 2) 5 5) ps) ps.

Definition function_module (v y x : Z) : bool :=
  finder_module v y x || timing_module y x || format_module v y x || version_module v y x
  || alignment_module v y x.

(** The two-module wide columns are visited from the right; the vertical timing pattern's column
    is skipped.  [k] numbers the columns; the result is the right one of the two columns. *)
Definition column_right (size : Z) (k : nat) : Z :=
  let x := size - 1 - 2 * Z.of_nat k in if x <=? 6 then x - 1 else x.

Definition rows (size : Z) : list Z := map Z.of_nat (seq 0 (Z.to_nat size)).

(** Modules of column [k]: upwards when [k] is even, downwards when odd, right before left. *)
Definition column_modules (size : Z) (k : nat) : list (Z * Z) :=
  let x := column_right size k in
  flat_map (fun y => [(y, x); (y, x - 1)])
           (if Nat.even k then rev (rows size) else rows size).

Definition zigzag (size : Z) : list (Z * Z) :=
  flat_map (column_modules size) (seq 0 (Z.to_nat ((size - 1) / 2))).

(** The data modules (y, x) of a version-[v] symbol, in the order in which the bit stream is
    placed. *)
Definition data_modules (v : Z) : list (Z * Z) :=
  filter (fun p => negb (function_module v (fst p) (snd p))) (zigzag (symbol_size v)).

(** * Data masks: [true] where the module is inverted *)
Definition mask_pattern (m y x : Z) : bool :=
  match m with
  | 0 => (y + x) mod 2 =? 0
  | 1 => y mod 2 =? 0
  | 2 => x mod 3 =? 0
  | 3 => (y + x) mod 3 =? 0
  | 4 => (y / 2 + x / 3) mod 2 =? 0
  | 5 => (y * x) mod 2 + (y * x) mod 3 =? 0
  | 6 => ((y * x) mod 2 + (y * x) mod 3) mod 2 =? 0
  | 7 => ((y + x) mod 2 + (y * x) mod 3) mod 2 =? 0
  | _ => false
  end.

(** * Error-correction levels and block structure (Table 9) *)
Inductive level := EcL | EcM | EcQ | EcH.

(** The two-bit level indicator of the format information. *)
Definition level_bits (e : level) : Z := match e with EcL => 1 | EcM => 0 | EcQ => 3 | EcH => 2 end.

Definition ecc_per_block_table (e : level) : list nat :=
  match e with
  | EcL => (
     [0; 7; 10; 15; 20; 26; 18; 20; 24; 30; 18; 20; 24; 26; 30; 22; 24; 28; 30; 28; 28; 28; 28;
     30; 30; 26; 28; 30; 30; 30; 30; 30; 30; 30; 30; 30; 30; 30; 30; 30; 30])%nat
  | EcM => (
     [0; 10; 16; 26; 18; 24; 16; 18; 22; 22; 26; 30; 22; 22; 24; 24; 28; 28; 26; 26; 26; 26;
     28; 28; 28; 28; 28; 28; 28; 28; 28; 28; 28; 28; 28; 28; 28; 28; 28; 28; 28])%nat
  | EcQ => (
     [0; 13; 22; 18; 26; 18; 24; 18; 22; 20; 24; 28; 26; 24; 20; 30; 24; 28; 28; 26; 30; 28;
     30; 30; 30; 30; 28; 30; 30; 30; 30; 30; 30; 30; 30; 30; 30; 30; 30; 30; 30])%nat
  | EcH => (
     [0; 17; 28; 22; 16; 22; 28; 26; 26; 24; 28; 24; 28; 22; 24; 24; 30; 28; 28; 26; 28; 30;
     24; 30; 30; 30; 30; 30; 30; 30; 30; 30; 30; 30; 30; 30; 30; 30; 30; 30; 30])%nat
  end.

Definition num_blocks_table (e : level) : list nat :=
  match e with
  | EcL => (
     [0; 1; 1; 1; 1; 1; 2; 2; 2; 2; 4; 4; 4; 4; 4; 6; 6; 6; 6; 7; 8; 8; 9; 9; 10; 12; 12; 12;
     13; 14; 15; 16; 17; 18; 19; 19; 20; 21; 22; 24; 25])%nat
  | EcM => (
     [0; 1; 1; 1; 2; 2; 4; 4; 4; 5; 5; 5; 8; 9; 9; 10; 10; 11; 13; 14; 16; 17; 17; 18; 20; 21;
     23; 25; 26; 28; 29; 31; 33; 35; 37; 38; 40; 43; 45; 47; 49])%nat
  | EcQ => (
     [0; 1; 1; 2; 2; 4; 4; 6; 6; 8; 8; 8; 10; 12; 16; 12; 17; 16; 18; 21; 20; 23; 23; 25; 27;
     29; 34; 34; 35; 38; 40; 43; 45; 48; 51; 53; 56; 59; 62; 65; 68])%nat
  | EcH => (
     [0; 1; 1; 2; 4; 4; 4; 5; 6; 8; 8; 11; 11; 16; 16; 18; 16; 19; 21; 25; 25; 25; 34; 30; 32;
     35; 37; 40; 42; 45; 48; 51; 54; 57; 60; 63; 66; 70; 74; 77; 81])%nat
  end.

Definition ecc_per_block (v : Z) (e : level) : nat := nth (Z.to_nat v) (ecc_per_block_table e) O.
Definition num_blocks (v : Z) (e : level) : nat := nth (Z.to_nat v) (num_blocks_table e) O.

(** Number of codewords of a version: the data modules in groups of eight. *)
Definition total_codewords (v : Z) : nat := (length (data_modules v) / 8)%nat.

(** The first [short_blocks] blocks hold one data codeword less than the others. *)
Definition short_blocks (v : Z) (e : level) : nat :=
  (num_blocks v e - total_codewords v mod num_blocks v e)%nat.
Definition block_data (v : Z) (e : level) (i : nat) : nat :=
  (total_codewords v / num_blocks v e - ecc_per_block v e
   + (if i <? short_blocks v e then 0 else 1))%nat.
Definition block_data_lengths (v : Z) (e : level) : list nat :=
  map (block_data v e) (seq 0 (num_blocks v e)).
Definition data_capacity (v : Z) (e : level) : nat := list_sum (block_data_lengths v e).

(** Cut a list into pieces of the given lengths. *)
Fixpoint cut {A} (lens : list nat) (l : list A) : list (list A) :=
  match lens with
  | [] => []
  | n :: t => firstn n l :: cut t (skipn n l)
  end.

(** Column by column through the blocks. *)
Definition interleave {A} (blocks : list (list A)) : list A :=
  flat_map (fun j => flat_map (fun b => match nth_error b j with Some a => [a] | None => [] end)
                              blocks)
           (seq 0 (list_max (map (@length A) blocks))).

(** Codeword sequence of a symbol with the given data codewords. *)
Definition symbol_codewords (v : Z) (e : level) (data : list Z) : list Z :=
  let blocks := cut (block_data_lengths v e) data in
  interleave blocks ++ interleave (map (rs_parity (ecc_per_block v e)) blocks).

(** The blocks of a symbol: data codewords followed by their check codewords. *)
Definition symbol_blocks (v : Z) (e : level) (data : list Z) : list (list Z) :=
  map (fun b => b ++ rs_parity (ecc_per_block v e) b) (cut (block_data_lengths v e) data).

(** The block every position of the codeword sequence belongs to, and the received block [i]:
    the codewords at the positions owned by it, in order. *)
Definition owners (v : Z) (e : level) : list nat :=
  let blocks := seq 0 (num_blocks v e) in
  interleave (map (fun i => repeat i (block_data v e i)) blocks) ++
  interleave (map (fun i => repeat i (ecc_per_block v e)) blocks).
Definition received_block (v : Z) (e : level) (received : list Z) (i : nat) : list Z :=
  map snd (filter (fun p => Nat.eqb (fst p) i) (combine (owners v e) received)).

(** * Messages *)
Inductive segment :=
| Numeric (digits : list Z)          (* 0..9 *)
| Alphanumeric (chars : list Z)      (* 0..44, Table 5 *)
| ByteMode (bytes : list Z)
| Kanji (codes : list Z)             (* Shift JIS double-byte codes *)
| Eci (designator : Z).

(** Table 5: "0123456789ABCDEFGHIJKLMNOPQRSTUVWXYZ $%*+-./:" in ASCII. *)
Definition alphanumeric_char (c : Z) : Z :=
  if c <? 10 then 48 + c
  else if c <? 36 then 65 + (c - 10)
  else nth (Z.to_nat (c - 36)) [32; 36; 37; 42; 43; 45; 46; 47; 58] 0.

(** The bytes a segment stands for. *)
Definition segment_bytes (s : segment) : list Z :=
  match s with
  | Numeric ds => map (fun d => 48 + d) ds
  | Alphanumeric cs => map alphanumeric_char cs
  | ByteMode bs => bs
  | Kanji cs => flat_map (fun c => [c / 256; c mod 256]) cs
  | Eci _ => []
  end.
Definition message_bytes (m : list segment) : list Z := flat_map segment_bytes m.

(** Width of the character count indicator (Table 3). *)
Definition count_bits (v : Z) (s : segment) : nat :=
  let pick a b c := if v <=? 9 then a else if v <=? 26 then b else c in
  match s with
  | Numeric _ => pick 10 12 14
  | Alphanumeric _ => pick 9 11 13
  | ByteMode _ => pick 8 16 16
  | Kanji _ => pick 8 10 12
  | Eci _ => 0
  end%nat.

Definition char_count (s : segment) : nat :=
  match s with
  | Numeric l | Alphanumeric l | ByteMode l | Kanji l => length l
  | Eci _ => O
  end.

Definition mode_indicator (s : segment) : Z :=
  match s with Numeric _ => 1 | Alphanumeric _ => 2 | ByteMode _ => 4 | Kanji _ => 8 | Eci _ => 7 end.

Fixpoint numeric_bits (n : nat) (ds : list Z) : list bool :=
  match n with
  | O => []
  | S n' =>
      match ds with
      | a :: b :: c :: t => bits_of 10 (100 * a + 10 * b + c) ++ numeric_bits n' t
      | [a; b] => bits_of 7 (10 * a + b)
      | [a] => bits_of 4 a
      | [] => []
      end
  end.

Fixpoint alphanumeric_bits (n : nat) (cs : list Z) : list bool :=
  match n with
  | O => []
  | S n' =>
      match cs with
      | a :: b :: t => bits_of 11 (45 * a + b) ++ alphanumeric_bits n' t
      | [a] => bits_of 6 a
      | [] => []
      end
  end.

(** 7.4.6: Shift JIS codes are compacted to 13 bits. *)
Definition kanji_value (c : Z) : Z :=
  let d := if c <=? 40956 then c - 33088 else c - 49472 in   (* 9FFC, 8140, C140 hexadecimal *)
  (d / 256) * 192 + d mod 256.

Definition eci_bits (n : Z) : list bool :=
  if n <? 128 then bits_of 8 n
  else if n <? 16384 then [true; false] ++ bits_of 14 n
  else [true; true; false] ++ bits_of 21 n.

Definition segment_bits (v : Z) (s : segment) : list bool :=
  bits_of 4 (mode_indicator s) ++ bits_of (count_bits v s) (Z.of_nat (char_count s)) ++
  match s with
  | Numeric ds => numeric_bits (length ds) ds
  | Alphanumeric cs => alphanumeric_bits (length cs) cs
  | ByteMode bs => bytes_bits bs
  | Kanji cs => flat_map (fun c => bits_of 13 (kanji_value c)) cs
  | Eci n => eci_bits n
  end.
Definition message_bits (v : Z) (m : list segment) : list bool := flat_map (segment_bits v) m.

(** Shift JIS double-byte characters of the two compactable ranges. *)
Definition sjis_char (c : Z) : Prop :=
  (33088 <= c <= 40956 \/ 57408 <= c <= 60351) /\ 64 <= c mod 256 <= 252.

Definition segment_ok (v : Z) (s : segment) : Prop :=
  Z.of_nat (char_count s) < 2 ^ Z.of_nat (count_bits v s) /\
  match s with
  | Numeric ds => Forall (fun d => 0 <= d < 10) ds
  | Alphanumeric cs => Forall (fun c => 0 <= c < 45) cs
  | ByteMode bs => Forall is_byte bs
  | Kanji cs => Forall sjis_char cs
  | Eci n => 0 <= n < 1000000
  end.
Definition message_ok (v : Z) (m : list segment) : Prop := Forall (segment_ok v) m.

(** Terminator, padding to a byte boundary, pad codewords. *)
Fixpoint pad_bytes (n : nat) : list Z :=
  match n with
  | O => []
  | S O => [236]
  | S (S n') => 236 :: 17 :: pad_bytes n'
  end.

Fixpoint group8 (fuel : nat) (bs : list bool) : list Z :=
  match fuel with
  | O => []
  | S f => match bs with [] => [] | _ => value_of (firstn 8 bs) :: group8 f (skipn 8 bs) end
  end.

(** The data codewords of a message, for a capacity of [cap] codewords. *)
Definition data_codewords (v : Z) (cap : nat) (m : list segment) : list Z :=
  let bits := message_bits v m in
  let term := repeat false (Nat.min 4 (8 * cap - length bits)) in
  let bits := bits ++ term in
  let bits := bits ++ repeat false ((8 - length bits mod 8) mod 8)%nat in
  let cws := group8 cap bits in
  cws ++ pad_bytes (cap - length cws).

Definition fits (v : Z) (e : level) (m : list segment) : Prop :=
  (length (message_bits v m) <= 8 * data_capacity v e)%nat.

(** * Format information *)
(** BCH (15,5) code: remainder of data * x^10 by x^10+x^8+x^5+x^4+x^2+x+1. *)
Fixpoint bch_reduce (n : nat) (r : Z) : Z :=
  match n with
  | O => r
  | S n' => bch_reduce n' (if Z.testbit r (Z.of_nat n' + 10)
                           then Z.lxor r (Z.shiftl 1335 (Z.of_nat n')) else r)
  end.
Definition bch_codeword (data : Z) : Z :=
  Z.lor (Z.shiftl data 10) (bch_reduce 5 (Z.shiftl data 10)).
Definition format_data (e : level) (mask : Z) : Z := 8 * level_bits e + mask.
Definition format_word (e : level) (mask : Z) : Z := Z.lxor (bch_codeword (format_data e mask)) 21522.

(** Module (y, x) of bit [i] (0 = least significant) of the two copies. *)
Definition format_module_1 (i : nat) : Z * Z :=
  nth i [(0,8);(1,8);(2,8);(3,8);(4,8);(5,8);(7,8);(8,8);(8,7);(8,5);(8,4);(8,3);(8,2);(8,1);(8,0)] (0,0).
Definition format_module_2 (size : Z) (i : nat) : Z * Z :=
  if (i <? 8)%nat then (8, size - 1 - Z.of_nat i) else (size - 15 + Z.of_nat i, 8).

Definition format_read (loc : nat -> Z * Z) (sym : Z -> Z -> bool) : list bool :=
  map (fun i => sym (fst (loc i)) (snd (loc i))) (seq 0 15).
Definition format_bits (w : Z) : list bool := map (fun i => Z.testbit w (Z.of_nat i)) (seq 0 15).

Fixpoint bit_distance (a b : list bool) : nat :=
  match a, b with
  | x :: a', y :: b' => ((if Bool.eqb x y then 0 else 1) + bit_distance a' b')%nat
  | _, _ => O
  end.

(** The word held by a copy, and the error patterns the library's decoder removes: all those of
    weight at most 3 (the capacity of the code), and 18 of weight 4 or 5, the rotations of two
    patterns. *)
Definition copy_word (loc : nat -> Z * Z) (sym : Z -> Z -> bool) : Z := value_of (rev (format_read loc sym)).
Definition rotations (n : nat) (x : Z) : list Z := map (fun k => x * 2 ^ Z.of_nat k mod 32767) (seq 0 n).
Definition beyond_capacity : list Z := rotations 15 209 ++ rotations 3 4681.
Definition correctable (u w : Z) : Prop :=
  (bit_distance (format_bits u) (format_bits w) <= 3)%nat \/ In (Z.lxor u w) beyond_capacity.

(** * Symbols *)

(** Modules of the encoding region with the mask removed, in placement order. *)
Definition read_modules (v mask : Z) (sym : Z -> Z -> bool) : list bool :=
  map (fun p => xorb (sym (fst p) (snd p)) (mask_pattern mask (fst p) (snd p))) (data_modules v).

(** The codewords carried by a (possibly damaged) symbol. *)
Definition received_codewords (v mask : Z) (sym : Z -> Z -> bool) : list Z :=
  firstn (total_codewords v) (group8 (S (total_codewords v)) (read_modules v mask sym)).

(** An undamaged symbol carrying message [m]. *)
Definition is_symbol (v : Z) (e : level) (mask : Z) (m : list segment) (sym : Z -> Z -> bool) : Prop :=
  received_codewords v mask sym = symbol_codewords v e (data_codewords v (data_capacity v e) m) /\
  format_read format_module_1 sym = format_bits (format_word e mask) /\
  format_read (format_module_2 (symbol_size v)) sym = format_bits (format_word e mask).


(** * Drawing a complete symbol *)

Definition ring (y x cy cx : Z) : Z := Z.max (Z.abs (y - cy)) (Z.abs (x - cx)).

(** Colour of the finder, separator, timing, alignment and version modules. *)
Definition finder_colour (v y x : Z) : bool :=
  let s := symbol_size v in
  let d := Z.min (ring y x 3 3) (Z.min (ring y x 3 (s - 4)) (ring y x (s - 4) 3)) in
  (d <=? 1) || (d =? 3).
Definition alignment_colour (v y x : Z) : bool :=
  let ps := alignment_positions v in
  existsb (fun cy => existsb (fun cx => (ring y x cy cx =? 0) || (ring y x cy cx =? 2)) ps) ps.

(** Version information: BCH (18,6) code, generator x^12+x^11+x^10+x^9+x^8+x^5+x^2+1. *)
Fixpoint golay_reduce (n : nat) (r : Z) : Z :=
  match n with
  | O => r
  | S n' => golay_reduce n' (if Z.testbit r (Z.of_nat n' + 12)
                             then Z.lxor r (Z.shiftl 7973 (Z.of_nat n')) else r)
  end.
Definition version_word (v : Z) : Z := Z.lor (Z.shiftl v 12) (golay_reduce 6 (Z.shiftl v 12)).
Definition version_colour (v y x : Z) : bool :=
  let s := symbol_size v in
  Z.testbit (version_word v) (if y <? x then 3 * y + (x - (s - 11)) else 3 * x + (y - (s - 11))).

Fixpoint lookup {A} (p : Z * Z) (l : list ((Z * Z) * A)) : option A :=
  match l with
  | [] => None
  | (q, a) :: t => if (fst p =? fst q) && (snd p =? snd q) then Some a else lookup p t
  end.

(** The symbol carrying the given codewords; remainder modules are zero before masking. *)
Definition draw (v : Z) (e : level) (mask : Z) (cws : list Z) (y x : Z) : bool :=
  let s := symbol_size v in
  let fmt := format_bits (format_word e mask) in
  let f1 := combine (map format_module_1 (seq 0 15)) fmt in
  let f2 := combine (map (format_module_2 s) (seq 0 15)) fmt in
  match lookup (y, x) (f1 ++ f2) with
  | Some b => b
  | None =>
      if finder_module v y x then finder_colour v y x
      else if format_module v y x && negb (timing_module y x) then true      (* dark module *)
      else if version_module v y x then version_colour v y x
      else if alignment_module v y x then alignment_colour v y x
      else if timing_module y x then Z.even (y + x)
      else match lookup (y, x) (combine (data_modules v)
                                        (bytes_bits cws ++ repeat false 7)) with
           | Some b => xorb b (mask_pattern mask y x)
           | None => false
           end
  end.

(** The reference encoder. *)
Definition encode (v : Z) (e : level) (mask : Z) (m : list segment) : Z -> Z -> bool :=
  draw v e mask (symbol_codewords v e (data_codewords v (data_capacity v e) m)).

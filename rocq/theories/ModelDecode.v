(** /repo/src/decode.rs, everything except the error-correction core (ModelRS.v),
    and the grid types of /repo/src/lib.rs. *)
From Verif Require Import Base VersionDb ModelGF ModelRS.

(** /repo/src/lib.rs:127-137 [trait BitGrid].  A grid is a size and a (possibly panicking) pure
    function from (y, x) to the module colour ([true] = black).  Simplification: a user's
    implementation could be impure; it is taken to be a function (C76 lifts this). *)
Record BitGrid := mkGrid {
  g_size : Z;
  g_bit : Z -> Z -> res deqr_error bool     (* y x *)
}.

(** /repo/src/lib.rs:160-170 [MirroredGrid] *)
Definition MirroredGrid (g : BitGrid) : BitGrid :=
  mkGrid (g_size g) (fun y x => g_bit g x y).

(** /repo/src/decode.rs:16 [struct Version(usize)] is a bare [Z]. *)

(** /repo/src/decode.rs:20-28 [Version::from_size]; [saturating_sub] is [Z.max 0]. *)
Definition version_from_size (b : Z) : res deqr_error Z :=
  let computed_version := Z.max 0 (b - 17) / 4 in
  if (0 <? computed_version) && (computed_version <=? 40) then Ok computed_version
  else Err InvalidVersion.

(** /repo/src/decode.rs:31-33 [Version::to_size] *)
Definition version_to_size (v : Z) : Z := v * 4 + 17.

(** /repo/src/decode.rs:41-48 [struct MetaData] *)
Record MetaData := mkMeta { md_version : Z; md_ecc_level : Z; md_mask : Z }.

(** /repo/src/decode.rs:12 *)
Definition MAX_PAYLOAD_SIZE : Z := 8896.

Definition zero_payload : list Z := repeat 0 (Z.to_nat MAX_PAYLOAD_SIZE).

(** /repo/src/decode.rs:52-57 [struct RawData] *)
Record RawData := mkRaw { rd_data : list Z; rd_len : Z }.

(** /repo/src/decode.rs:61-70 [RawData::push] *)
Definition raw_push (rd : RawData) (bit : bool) : res deqr_error RawData :=
  let* _ := assert_ (rd_len rd / 8 <? MAX_PAYLOAD_SIZE) in
  let bitpos := Z.land (rd_len rd) 7 in
  let bytepos := Z.shiftr (rd_len rd) 3 in
  let* data :=
    if bit then
      let* old := aget (rd_data rd) (Z.to_nat bytepos) in
      aset (rd_data rd) (Z.to_nat bytepos) (Z.lor old (Z.shiftr 128 bitpos))
    else Ok (rd_data rd) in
  Ok (mkRaw data (rd_len rd + 1)).

(** /repo/src/decode.rs:74-78 [struct CorrectedDataStream] *)
Record CorrectedDataStream := mkDS { ds_data : list Z; ds_ptr : Z; ds_bit_len : Z }.

(** /repo/src/decode.rs:81-84 [bits_remaining] *)
Definition bits_remaining (ds : CorrectedDataStream) : res deqr_error Z :=
  let* _ := assert_ (ds_ptr ds <=? ds_bit_len ds) in
  Ok (ds_bit_len ds - ds_ptr ds).

(** /repo/src/decode.rs:90-98: the loop of [take_bits]. [ret <<= 1; ret |= 1] is [2*ret+1];
    no bit is lost because at most 64 iterations happen (asserted by the caller). *)
Fixpoint take_bits_loop (n : nat) (ret : Z) (ds : CorrectedDataStream)
  : res deqr_error (Z * CorrectedDataStream) :=
  match n with
  | O => Ok (ret, ds)
  | S n' =>
      let* b := aget (ds_data ds) (Z.to_nat (Z.shiftr (ds_ptr ds) 3)) in
      let bitpos := Z.land (ds_ptr ds) 7 in
      let ret := 2 * ret in
      let ret := if Z.land (Z.shiftl b bitpos mod 256) 128 =? 0 then ret else Z.lor ret 1 in
      take_bits_loop n' ret (mkDS (ds_data ds) (ds_ptr ds + 1) (ds_bit_len ds))
  end.

(** /repo/src/decode.rs:86-101 [take_bits] *)
Definition take_bits (ds : CorrectedDataStream) (nbits : Z)
  : res deqr_error (Z * CorrectedDataStream) :=
  let* r := bits_remaining ds in
  let max_len := Z.min r nbits in
  let* _ := assert_ (max_len <=? 64) in
  take_bits_loop (Z.to_nat max_len) 0 ds.

(** * Payload decoding, parametric in the output writer.

    [std::io::Write] is modelled as an arbitrary state machine: [wr w bytes] is the effect of
    [write_all(bytes)]; the flag tells whether it returned [Ok].  (A failing [write_all] may
    have written some of its bytes: the new state is arbitrary.) *)
Section Payload.
  Context {W : Type} (wr : W -> list Z -> W * bool).

  (** A computation that may write: final writer state and outcome. *)
  Definition io (A : Type) : Type := W -> W * res deqr_error A.
  Definition io_ret {A} (a : A) : io A := fun w => (w, Ok a).
  Definition io_lift {A} (r : res deqr_error A) : io A := fun w => (w, r).
  Definition io_bind {A B} (m : io A) (k : A -> io B) : io B :=
    fun w => let '(w', r) := m w in
             match r with
             | Ok a => k a w'
             | Err e => (w', Err e)
             | Panic => (w', Panic)
             | Diverge => (w', Diverge)
             end.

  (** [writer.write_all(bytes).map_err(|_| DeQRError::IoError)?] *)
  Definition io_write (bytes : list Z) : io unit :=
    fun w => let '(w', ok) := wr w bytes in (w', if ok then Ok tt else Err IoError).
End Payload.
Arguments io W A : clear implicits.

Declare Scope io_scope.
Delimit Scope io_scope with io.
Notation "'do*' x ':=' m 'in' k" := (io_bind m (fun x => k))
  (at level 200, x pattern, right associativity) : io_scope.
Open Scope io_scope.

Section PayloadDecoders.
  Context {W : Type} (wr : W -> list Z -> W * bool).
  Notation io := (io W).

  (** /repo/src/decode.rs:264-281 [alpha_tuple] *)
  Definition ALPHA_MAP : list Z :=
    (* b"0123456789ABCDEFGHIJKLMNOPQRSTUVWXYZ $%*+-./:\x00" *)
    [48;49;50;51;52;53;54;55;56;57;
     65;66;67;68;69;70;71;72;73;74;75;76;77;78;79;80;81;82;83;84;85;86;87;88;89;90;
     32;36;37;42;43;45;46;47;58;0].

  Definition alpha_tuple (buf : list Z) (ds : CorrectedDataStream) (nbits : Z) (digits : nat)
    : res deqr_error (list Z * CorrectedDataStream) :=
    let* r := bits_remaining ds in
    if r <? nbits then Err DataUnderflow
    else
      let* (tuple, ds) := take_bits ds nbits in
      let* (buf, _) :=
        for_each (rev (range 0 digits))
          (fun i '(buf, tuple) =>
             let* c := aget ALPHA_MAP (Z.to_nat (tuple mod 45)) in
             let* buf := aset buf i c in
             Ok (buf, tuple / 45))
          (buf, tuple) in
      Ok (buf, ds).

  (** /repo/src/decode.rs:318-334 [numeric_tuple] *)
  Definition numeric_tuple (buf : list Z) (ds : CorrectedDataStream) (nbits : Z) (digits : nat)
    : res deqr_error (list Z * CorrectedDataStream) :=
    let* r := bits_remaining ds in
    if r <? nbits then Err DataUnderflow
    else
      let* (tuple, ds) := take_bits ds nbits in
      let* (buf, _) :=
        for_each (rev (range 0 digits))
          (fun i '(buf, tuple) =>
             let* buf := aset buf i (tuple mod 10 + 48) in
             Ok (buf, tuple / 10))
          (buf, tuple) in
      Ok (buf, ds).

  (** /repo/src/decode.rs:158-180 [decode_eci] *)
  Definition decode_eci (ds : CorrectedDataStream) : io CorrectedDataStream :=
    do* r := io_lift (bits_remaining ds) in
    if r <? 8 then io_lift (Err DataUnderflow)
    else
      do* (eci, ds) := io_lift (take_bits ds 8) in
      if Z.land eci 192 =? 128 then
        do* r := io_lift (bits_remaining ds) in
        if r <? 8 then io_lift (Err DataUnderflow)
        else do* (_, ds) := io_lift (take_bits ds 8) in io_ret ds
      else if Z.land eci 224 =? 192 then
        do* r := io_lift (bits_remaining ds) in
        if r <? 16 then io_lift (Err DataUnderflow)
        else do* (_, ds) := io_lift (take_bits ds 16) in io_ret ds
      else io_ret ds.

  (** /repo/src/decode.rs:198-207: one kanji, 13 bits to two bytes. *)
  Definition kanji_bytes (d : Z) : list Z :=
    let ms_b := d / 192 in
    let ls_b := d mod 192 in
    let intermediate := Z.lor (Z.shiftl ms_b 8) ls_b in
    let sjw :=
      if intermediate + 33088 <=? 40956 then (intermediate + 33088) mod 65536
      else (intermediate + 49472) mod 65536 in
    [Z.shiftr sjw 8 mod 256; Z.land sjw 255].

  (** /repo/src/decode.rs:197-211: the loop of [decode_kanji]. *)
  Fixpoint kanji_loop (n : nat) (ds : CorrectedDataStream) : io CorrectedDataStream :=
    match n with
    | O => io_ret ds
    | S n' =>
        do* (d, ds) := io_lift (take_bits ds 13) in
        do* _ := io_write wr (kanji_bytes d) in
        kanji_loop n' ds
    end.

  (** /repo/src/decode.rs:182-213 [decode_kanji] *)
  Definition decode_kanji (meta : MetaData) (ds : CorrectedDataStream) : io CorrectedDataStream :=
    let nbits := if md_version meta <=? 9 then 8
                 else if md_version meta <=? 26 then 10 else 12 in
    do* (count, ds) := io_lift (take_bits ds nbits) in
    do* r := io_lift (bits_remaining ds) in
    if r <? count * 13 then io_lift (Err DataUnderflow)
    else kanji_loop (Z.to_nat count) ds.

  (** /repo/src/decode.rs:229-232: the loop of [decode_byte]. *)
  Fixpoint byte_loop (n : nat) (ds : CorrectedDataStream) : io CorrectedDataStream :=
    match n with
    | O => io_ret ds
    | S n' =>
        do* (d, ds) := io_lift (take_bits ds 8) in
        do* _ := io_write wr [d mod 256] in
        byte_loop n' ds
    end.

  (** /repo/src/decode.rs:215-234 [decode_byte] *)
  Definition decode_byte (meta : MetaData) (ds : CorrectedDataStream) : io CorrectedDataStream :=
    let nbits := if md_version meta <=? 9 then 8 else 16 in
    do* (count, ds) := io_lift (take_bits ds nbits) in
    do* r := io_lift (bits_remaining ds) in
    if r <? count * 8 then io_lift (Err DataUnderflow)
    else byte_loop (Z.to_nat count) ds.

  (** /repo/src/decode.rs:248-252: [while count >= 2].  The loop body runs [count / 2] times. *)
  Fixpoint alpha_loop (n : nat) (buf : list Z) (ds : CorrectedDataStream)
    : io (list Z * CorrectedDataStream) :=
    match n with
    | O => io_ret (buf, ds)
    | S n' =>
        do* (buf, ds) := io_lift (alpha_tuple buf ds 11 2) in
        do* _ := io_write wr buf in
        alpha_loop n' buf ds
    end.

  (** /repo/src/decode.rs:236-262 [decode_alpha] *)
  Definition decode_alpha (meta : MetaData) (ds : CorrectedDataStream) : io CorrectedDataStream :=
    let nbits := if md_version meta <=? 9 then 9
                 else if md_version meta <=? 26 then 11 else 13 in
    do* (count, ds) := io_lift (take_bits ds nbits) in
    do* (buf, ds) := alpha_loop (Z.to_nat (count / 2)) [0; 0] ds in
    if count mod 2 =? 1 then
      do* (buf, ds) := io_lift (alpha_tuple buf ds 6 1) in
      do* _ := io_write wr (firstn 1 buf) in
      io_ret ds
    else io_ret ds.

  (** /repo/src/decode.rs:295-299: [while count >= 3].  The loop body runs [count / 3] times. *)
  Fixpoint numeric_loop (n : nat) (buf : list Z) (ds : CorrectedDataStream)
    : io (list Z * CorrectedDataStream) :=
    match n with
    | O => io_ret (buf, ds)
    | S n' =>
        do* (buf, ds) := io_lift (numeric_tuple buf ds 10 3) in
        do* _ := io_write wr buf in
        numeric_loop n' buf ds
    end.

  (** /repo/src/decode.rs:283-316 [decode_numeric] *)
  Definition decode_numeric (meta : MetaData) (ds : CorrectedDataStream) : io CorrectedDataStream :=
    let nbits := if md_version meta <=? 9 then 10
                 else if md_version meta <=? 26 then 12 else 14 in
    do* (count, ds) := io_lift (take_bits ds nbits) in
    do* (buf, ds) := numeric_loop (Z.to_nat (count / 3)) [0; 0; 0] ds in
    let count := count mod 3 in
    do* (buf, ds, count) :=
      (if count =? 2 then
         do* (buf, ds) := io_lift (numeric_tuple buf ds 7 2) in
         do* _ := io_write wr (firstn 2 buf) in
         io_ret (buf, ds, count - 2)
       else io_ret (buf, ds, count)) in
    if count =? 1 then
      do* (buf, ds) := io_lift (numeric_tuple buf ds 4 1) in
      do* _ := io_write wr (firstn 1 buf) in
      io_ret ds
    else io_ret ds.

  (** /repo/src/decode.rs:139-156 [decode_payload]; [fuel] bounds the [while] loop. *)
  Fixpoint decode_payload_loop (fuel : nat) (meta : MetaData) (ds : CorrectedDataStream) : io unit :=
    match fuel with
    | O => io_lift Diverge
    | S fuel' =>
        do* r := io_lift (bits_remaining ds) in
        if 4 <=? r then
          do* (ty, ds) := io_lift (take_bits ds 4) in
          if ty =? 0 then io_ret tt
          else
            do* ds :=
              (if ty =? 1 then decode_numeric meta ds
               else if ty =? 2 then decode_alpha meta ds
               else if ty =? 4 then decode_byte meta ds
               else if ty =? 8 then decode_kanji meta ds
               else if ty =? 7 then decode_eci ds
               else io_lift (Err UnknownDataType)) in
            decode_payload_loop fuel' meta ds
        else io_ret tt
    end.

  (** Every iteration consumes at least 4 bits, so this fuel is enough (proved). *)
  Definition decode_payload (meta : MetaData) (ds : CorrectedDataStream) : io unit :=
    decode_payload_loop (S (Z.to_nat (ds_bit_len ds - ds_ptr ds))) meta ds.
End PayloadDecoders.

(** /repo/src/decode.rs:343, 601: [VERSION_DATA_BASE[version.0]] *)
Definition db_get {E} (version : Z) : res E VersionInfo :=
  aget VERSION_DATA_BASE (Z.to_nat version).

(** /repo/src/decode.rs:356-370: one iteration of the block loop: extract the interleaved block [i]
    into [out.data[dst_offset..]], correct it in place, advance. *)
Definition ecc_block (raw : list Z) (sb_ecc : RSParameters) (bc ecc_offset : nat)
  (i : nat) (st : list Z * nat) : res deqr_error (list Z * nat) :=
  let '(out, dst_offset) := st in
  let lb_ecc := mkRS (rs_bs sb_ecc + 1) (rs_dw sb_ecc + 1) (rs_ns sb_ecc) in
  let ecc := if (i <? rs_ns sb_ecc)%nat then sb_ecc else lb_ecc in
  (* let dst = &mut out.data[dst_offset..(dst_offset + ecc.bs)] *)
  let* _ := assert_ (dst_offset + rs_bs ecc <=? length out)%nat in
  let dst := firstn (rs_bs ecc) (skipn dst_offset out) in
  let* num_ec := nsub (rs_bs ecc) (rs_dw ecc) in
  let* dst := for_each (range 0 (rs_dw ecc))
    (fun j dst =>
       let* v := aget raw (j * bc + i) in
       aset dst j v) dst in
  let* dst := for_each (range 0 num_ec)
    (fun j dst =>
       let* v := aget raw (ecc_offset + j * bc + i) in
       aset dst (rs_dw ecc + j) v) dst in
  let* dst := correct_block GF256 dst ecc in
  let out := firstn dst_offset out ++ dst ++ skipn (dst_offset + rs_bs ecc) out in
  Ok (out, (dst_offset + rs_dw ecc)%nat).

(** /repo/src/decode.rs:336-374 [codestream_ecc] *)
Definition codestream_ecc (meta : MetaData) (ds : RawData) : res deqr_error CorrectedDataStream :=
  let* ver := db_get (md_version meta) in
  let* sb_ecc := aget (vi_ecc ver) (Z.to_nat (md_ecc_level meta)) in
  let* d := usub (vi_data_bytes ver) (Z.of_nat (rs_bs sb_ecc * rs_ns sb_ecc)) in
  let lb_count := Z.to_nat (d / Z.of_nat (rs_bs sb_ecc + 1)) in
  let bc := (lb_count + rs_ns sb_ecc)%nat in
  let ecc_offset := (rs_dw sb_ecc * bc + lb_count)%nat in
  let* (out, dst_offset) :=
    for_each (range 0 bc) (ecc_block (rd_data ds) sb_ecc bc ecc_offset) (zero_payload, 0%nat) in
  Ok (mkDS out 0 (Z.of_nat (dst_offset * 8))).

(** /repo/src/decode.rs:586-598 [mask_bit] *)
Definition mask_bit (mask y x : Z) : res deqr_error bool :=
  if mask =? 0 then Ok (0 =? (y + x) mod 2)
  else if mask =? 1 then Ok (0 =? y mod 2)
  else if mask =? 2 then Ok (0 =? x mod 3)
  else if mask =? 3 then Ok (0 =? (y + x) mod 3)
  else if mask =? 4 then Ok (0 =? (y / 2 + x / 3) mod 2)
  else if mask =? 5 then Ok (0 =? (y * x) mod 2 + (y * x) mod 3)
  else if mask =? 6 then Ok (0 =? ((y * x) mod 2 + (y * x) mod 3) mod 2)
  else if mask =? 7 then Ok (0 =? ((y * x) mod 3 + (y + x) mod 2) mod 2)
  else Panic.

(** /repo/src/decode.rs:642: [apat.iter().take_while(|&&x| x != 0)] *)
Fixpoint take_nonzero (l : list Z) : list Z :=
  match l with
  | [] => []
  | a :: t => if a =? 0 then [] else a :: take_nonzero t
  end.

(** /repo/src/decode.rs:638-650: the scan over the alignment coordinates: [(ai, aj, len)]. *)
Fixpoint apat_scan (pats : list Z) (a : Z) (i j : Z) (st : option Z * option Z * Z)
  : option Z * option Z * Z :=
  match pats with
  | [] => st
  | pattern :: t =>
      let '(ai, aj, len) := st in
      let ai := if Z.abs (pattern - i) <? 3 then Some a else ai in
      let aj := if Z.abs (pattern - j) <? 3 then Some a else aj in
      apat_scan t (a + 1) i j (ai, aj, a)
  end.

(** /repo/src/decode.rs:600-658 [reserved_cell], given the version's table entry. *)
Definition reserved_cell_in (ver : VersionInfo) (version i j : Z) : bool :=
  let size := version * 4 + 17 in
  if (i <? 9) && (j <? 9) then true
  else if (size <=? i + 8) && (j <? 9) then true
  else if (i <? 9) && (size <=? j + 8) then true
  else if (i =? 6) || (j =? 6) then true
  else if (7 <=? version) && (i <? 6) && (size <=? j + 11) then true
  else if (7 <=? version) && (size <=? i + 11) && (j <? 6) then true
  else
    let '(ai, aj, len) := apat_scan (take_nonzero (vi_apat ver)) 0 i j (None, None, 0) in
    match ai, aj with
    | Some x, Some y =>
        if (x =? len) && (y =? len) then true
        else if (0 <? x) && (x <? len) then true
        else if (0 <? y) && (y <? len) then true
        else false
    | _, _ => false
    end.

Definition reserved_cell (version i j : Z) : res deqr_error bool :=
  let* ver := db_get version in
  Ok (reserved_cell_in ver version i j).

(** /repo/src/decode.rs:577-584 [read_bit] *)
Definition read_bit (code : BitGrid) (meta : MetaData) (y x : Z) (remove_mask : bool)
  : res deqr_error bool :=
  let* v := g_bit code y x in
  if remove_mask then
    let* m := mask_bit (md_mask meta) y x in
    Ok (if m then negb v else v)
  else Ok v.

(** /repo/src/decode.rs:548-553: read one cell unless it is reserved. *)
Definition read_cell (code : BitGrid) (meta : MetaData) (remove_mask : bool) (y x : Z) (ds : RawData)
  : res deqr_error RawData :=
  let* r := reserved_cell (md_version meta) y x in
  if negb r then
    let* b := read_bit code meta y x remove_mask in
    raw_push ds b
  else Ok ds.

(** /repo/src/decode.rs:544-570: the [while x > 0] loop, on fuel. *)
Fixpoint read_data_loop (fuel : nat) (code : BitGrid) (meta : MetaData) (remove_mask : bool)
  (y x : Z) (neg_dir : bool) (ds : RawData) : res deqr_error RawData :=
  match fuel with
  | O => Diverge
  | S fuel' =>
      if 0 <? x then
        let x := if x =? 6 then x - 1 else x in
        let* ds := read_cell code meta remove_mask y x ds in
        let* ds := read_cell code meta remove_mask y (x - 1) ds in
        if (y =? 0) && neg_dir then
          read_data_loop fuel' code meta remove_mask 0 (Z.max 0 (x - 2)) false ds
        else if negb neg_dir && (y =? g_size code - 1) then
          read_data_loop fuel' code meta remove_mask (g_size code - 1) (Z.max 0 (x - 2)) true ds
        else if neg_dir then
          read_data_loop fuel' code meta remove_mask (y - 1) x neg_dir ds
        else
          read_data_loop fuel' code meta remove_mask (y + 1) x neg_dir ds
      else Ok ds
  end.

(** Enough iterations for the loop: [size] rows for each column pair, and one for the exit test
    (that it suffices is proved). *)
Definition read_data_fuel (size : Z) : nat := S (Z.to_nat (size * ((size + 1) / 2))).

(** /repo/src/decode.rs:534-573 [read_data] *)
Definition read_data (code : BitGrid) (meta : MetaData) (remove_mask : bool)
  : res deqr_error RawData :=
  let* y := usub (g_size code) 1 in
  let* x := usub (g_size code) 1 in
  read_data_loop (read_data_fuel (g_size code)) code meta remove_mask y x true
    (mkRaw zero_payload 0).

(** /repo/src/decode.rs:720-741 [format_syndromes]: flag and the 64-entry array. *)
Definition format_syndromes {E} (u : Z) : res E (bool * list Z) :=
  for_each (range 0 6)
    (fun i '(nonzero, result) =>
       let* result := for_each (range 0 15)
         (fun j result =>
            if Z.land u (Z.shiftl 1 (Z.of_nat j)) =? 0 then Ok result
            else
              let* o := aget result i in
              aset result i (gf_add GF16 o (gf_pow GF16 (gf_gen GF16) ((i + 1) * j))))
         result in
       let* ri := aget result i in
       Ok (if ri =? 0 then nonzero else true, result))
    (false, zeros64 GF16).

(** /repo/src/decode.rs:660-678 [correct_format] *)
Definition correct_format (word : Z) : res deqr_error Z :=
  let* (nonzero, s) := format_syndromes word in
  if nonzero then
    let* sigma := berlekamp_massey GF16 s 6 in
    let* word := for_each (range 0 15)
      (fun i word =>
         let* k := nsub 15 i in
         let* v := poly_eval GF16 sigma (gf_pow GF16 (gf_gen GF16) k) in
         Ok (if v =? 0 then Z.lxor word (Z.shiftl 1 (Z.of_nat i)) else word))
      word in
    let* (nonzero, _) := format_syndromes word in
    if nonzero then Err FormatEcc else Ok word
  else Ok word.

(** [code.bit(..) as u16] appended to the word being assembled: [(format << 1) | bit]. *)
Definition push_format_bit (format : Z) (b : bool) : Z :=
  Z.lor (Z.shiftl format 1) (Z.b2z b).

(** /repo/src/decode.rs:684-685 *)
Definition XS : list Z := [8; 8; 8; 8; 8; 8; 8; 8; 7; 5; 4; 3; 2; 1; 0].
Definition YS : list Z := [0; 1; 2; 3; 4; 5; 7; 8; 8; 8; 8; 8; 8; 8; 8].

(** /repo/src/decode.rs:686-689: first copy of the format information. *)
Definition read_format_first (code : BitGrid) : res deqr_error Z :=
  let* format := for_each (rev (range 0 15))
    (fun i format =>
       let* y := aget YS i in
       let* x := aget XS i in
       let* b := g_bit code y x in
       Ok (push_format_bit format b)) 0 in
  Ok (Z.lxor format 21522).   (* 0x5412 *)

(** /repo/src/decode.rs:693-700: second copy. *)
Definition read_format_second (code : BitGrid) : res deqr_error Z :=
  let* format := for_each (zrange 0 7)
    (fun i format =>
       let* s1 := usub (g_size code) 1 in
       let* y := usub s1 i in
       let* b := g_bit code y 8 in
       Ok (push_format_bit format b)) 0 in
  let* format := for_each (zrange 0 8)
    (fun i format =>
       let* s8 := usub (g_size code) 8 in
       let* b := g_bit code 8 (s8 + i) in
       Ok (push_format_bit format b)) format in
  Ok (Z.lxor format 21522).

(** /repo/src/decode.rs:680-714 [read_format] *)
Definition read_format (code : BitGrid) : res deqr_error MetaData :=
  let* format := read_format_first code in
  let* verified_format :=
    match correct_format format with
    | Err _ => let* format := read_format_second code in correct_format format
    | r => r
    end in
  let fdata := Z.shiftr verified_format 10 in
  let ecc_level := Z.shiftr fdata 3 in
  let mask := Z.land fdata 7 in
  let* version := version_from_size (g_size code) in
  Ok (mkMeta version ecc_level mask).

(** /repo/src/decode.rs:133-137 [get_raw] *)
Definition get_raw (code : BitGrid) (remove_mask : bool) : res deqr_error (MetaData * RawData) :=
  let* meta := read_format code in
  let* raw := read_data code meta remove_mask in
  Ok (meta, raw).

(** /repo/src/decode.rs:113-117: the inner function [_decode]. *)
Definition decode_inner (c : BitGrid) : res deqr_error (MetaData * CorrectedDataStream) :=
  let* (meta, raw) := get_raw c true in
  let* stream := codestream_ecc meta raw in
  Ok (meta, stream).

(** /repo/src/decode.rs:109-128 [decode] *)
Definition decode {W} (wr : W -> list Z -> W * bool) (code : BitGrid) : io W MetaData :=
  do* (meta, stream) := io_lift
    match decode_inner code with
    | Err original =>
        match decode_inner (MirroredGrid code) with
        | Err _ => Err original
        | r => r
        end
    | r => r
    end in
  do* _ := decode_payload wr meta stream in
  io_ret meta.

(** /repo/src/lib.rs:112-117 [Grid::decode_to] *)
Definition grid_decode_to {W} (wr : W -> list Z -> W * bool) (g : BitGrid) : io W MetaData :=
  decode wr g.

(** /repo/src/lib.rs:101-103 [Grid::get_raw_data] *)
Definition grid_get_raw_data (g : BitGrid) : res deqr_error (MetaData * RawData) := get_raw g false.

(** [impl Write for Vec<u8>]: appends, never fails. *)
Definition vec_writer (v : list Z) (bytes : list Z) : list Z * bool := (v ++ bytes, true).

(** [String::from_utf8] (standard library, not part of /repo): accepts exactly the well-formed
    byte sequences of the Unicode standard, Table 3-7. *)
Definition in_range (lo hi b : Z) : bool := (lo <=? b) && (b <=? hi).
Fixpoint utf8_valid (l : list Z) : bool :=
  match l with
  | [] => true
  | b0 :: l1 =>
      if in_range 0 127 b0 then utf8_valid l1
      else match l1 with
      | [] => false
      | b1 :: l2 =>
          if in_range 194 223 b0 && in_range 128 191 b1 then utf8_valid l2
          else match l2 with
          | [] => false
          | b2 :: l3 =>
              if ((b0 =? 224) && in_range 160 191 b1
                  || in_range 225 236 b0 && in_range 128 191 b1
                  || (b0 =? 237) && in_range 128 159 b1
                  || in_range 238 239 b0 && in_range 128 191 b1)
                 && in_range 128 191 b2 then utf8_valid l3
              else match l3 with
              | [] => false
              | b3 :: l4 =>
                  if ((b0 =? 240) && in_range 144 191 b1
                      || in_range 241 243 b0 && in_range 128 191 b1
                      || (b0 =? 244) && in_range 128 143 b1)
                     && in_range 128 191 b2 && in_range 128 191 b3 then utf8_valid l4
                  else false
              end
          end
      end
  end.

(** /repo/src/lib.rs:90-95 [Grid::decode]; the returned string is its UTF-8 bytes. *)
Definition grid_decode (g : BitGrid) : res deqr_error (MetaData * list Z) :=
  let '(out, r) := grid_decode_to vec_writer g [] in
  let* meta := r in
  if utf8_valid out then Ok (meta, out) else Err EncodingError.

(** /repo/src/lib.rs:252-255 [struct SimpleGrid] *)
Record SimpleGrid := mkSimple { sg_bitmap : list Z; sg_size : Z }.

(** /repo/src/lib.rs:258-274 [SimpleGrid::from_func].  [fill_func] is a pure [Fn] (C75 lifts this).  [size * size]
    overflows from [2 ^ 32] on. *)
Definition simple_from_func {E} (size : Z) (fill_func : Z -> Z -> bool) : res E SimpleGrid :=
  let* _ := assert_ (size * size <? 2 ^ 64) in
  let cell_bitmap := repeat 0 (Z.to_nat ((size * size + 7) / 8)) in
  let* (cell_bitmap, c) :=
    for_each (zrange 0 size)
      (fun y st =>
         for_each (zrange 0 size)
           (fun x '(bm, c) =>
              let* bm :=
                if fill_func x y then
                  let* old := aget bm (Z.to_nat (Z.shiftr c 3)) in
                  aset bm (Z.to_nat (Z.shiftr c 3)) (Z.lor old (Z.shiftl 1 (Z.land c 7)))
                else Ok bm in
              Ok (bm, c + 1))
           st)
      (cell_bitmap, 0) in
  Ok (mkSimple cell_bitmap size).

(** /repo/src/lib.rs:277-286 [impl BitGrid for SimpleGrid] *)
Definition simple_bit (g : SimpleGrid) (y x : Z) : res deqr_error bool :=
  let c := y * sg_size g + x in
  let* b := aget (sg_bitmap g) (Z.to_nat (Z.shiftr c 3)) in
  Ok (negb (Z.land b (Z.shiftl 1 (Z.land c 7)) =? 0)).

Definition simple_grid (g : SimpleGrid) : BitGrid := mkGrid (sg_size g) (simple_bit g).

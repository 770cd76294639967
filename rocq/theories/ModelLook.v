(** Model of decoding for grids that remember things: [BitGrid::bit] takes [&self], but an implementation may use interior
    mutability (a cache, a log, a camera) and may panic.  This is ModelDecode.v's reading of a grid, with the state of the
    grid passed from call to call.  Simplification: [size] always answers the same. *)
From Verif Require Import Base ModelGF ModelRS ModelDecode ModelImage ModelCalls.
Open Scope Z_scope.

(** /repo/src/lib.rs:127-137 [trait BitGrid]; [wg_bit s y x] is one call of [bit(y, x)]. *)
Record WatchedGrid (S : Type) := MkWatched { wg_size : Z; wg_bit : callback S bool }.
Arguments MkWatched {S} _ _.
Arguments wg_size {S} _.
Arguments wg_bit {S} _.

(** /repo/src/lib.rs:160-170 [MirroredGrid]. *)
Definition w_mirrored {S} (g : WatchedGrid S) : WatchedGrid S := MkWatched (wg_size g) (fun s y x => wg_bit g s x y).

(** A computation that may look at the grid and may end with an error: the state goes on after an error, not after a panic. *)
Definition look (S A : Type) : Type := S -> out (S * (A + deqr_error)).
Definition lk_ret {S A} (a : A) : look S A := fun s => Ok (s, inl a).
Definition lk_lift {S A} (r : res deqr_error A) : look S A := fun s =>
  match r with
  | Ok a => Ok (s, inl a)
  | Err e => Ok (s, inr e)
  | Panic => Panic
  | Diverge => Diverge
  end.
Definition lk_bind {S A B} (m : look S A) (k : A -> look S B) : look S B := fun s =>
  let* t := m s in
  match snd t with
  | inl a => k a (fst t)
  | inr e => Ok (fst t, inr e)
  end.
Definition lk_bit {S} (g : WatchedGrid S) (y x : Z) : look S bool := fun s =>
  let* t := wg_bit g s y x in Ok (fst t, inl (snd t)).
Fixpoint lk_for {S I St} (l : list I) (body : I -> St -> look S St) (st : St) : look S St :=
  match l with
  | [] => lk_ret st
  | i :: l => lk_bind (body i st) (lk_for l body)
  end.

Notation "'see*' x ':=' m 'in' k" := (lk_bind m (fun x => k)) (at level 200, x pattern, right associativity).

Section Reading.
Context {S : Type}.
Implicit Types g : WatchedGrid S.

(** /repo/src/decode.rs:686-689: first copy of the format information. *)
Definition w_format_first g : look S Z :=
  see* format := lk_for (rev (range 0 15)) (fun i format =>
    see* y := lk_lift (aget YS i) in
    see* x := lk_lift (aget XS i) in
    see* b := lk_bit g y x in
    lk_ret (push_format_bit format b)) 0 in
  lk_ret (Z.lxor format 21522).

(** decode.rs:693-700: second copy. *)
Definition w_format_second g : look S Z :=
  see* format := lk_for (zrange 0 7) (fun i format =>
    see* s1 := lk_lift (usub (wg_size g) 1) in
    see* y := lk_lift (usub s1 i) in
    see* b := lk_bit g y 8 in
    lk_ret (push_format_bit format b)) 0 in
  see* format := lk_for (zrange 0 8) (fun i format =>
    see* s8 := lk_lift (usub (wg_size g) 8) in
    see* b := lk_bit g 8 (s8 + i) in
    lk_ret (push_format_bit format b)) format in
  lk_ret (Z.lxor format 21522).

(** decode.rs:680-714 [read_format]. *)
Definition w_read_format g : look S MetaData :=
  see* format := w_format_first g in
  see* verified_format :=
    match correct_format format with
    | Err _ => see* format := w_format_second g in lk_lift (correct_format format)
    | r => lk_lift r
    end in
  let fdata := Z.shiftr verified_format 10 in
  let ecc_level := Z.shiftr fdata 3 in
  let mask := Z.land fdata 7 in
  see* version := lk_lift (version_from_size (wg_size g)) in
  lk_ret (mkMeta version ecc_level mask).

(** decode.rs:577-584 [read_bit]. *)
Definition w_read_bit g (meta : MetaData) (y x : Z) (remove_mask : bool) : look S bool :=
  see* v := lk_bit g y x in
  if remove_mask then
    see* m := lk_lift (mask_bit (md_mask meta) y x) in
    lk_ret (if m : bool then negb v else v)
  else lk_ret v.

(** decode.rs:548-553. *)
Definition w_read_cell g (meta : MetaData) (remove_mask : bool) (y x : Z) (ds : RawData) : look S RawData :=
  see* r := lk_lift (reserved_cell (md_version meta) y x) in
  if negb r then
    see* b := w_read_bit g meta y x remove_mask in
    lk_lift (raw_push ds b)
  else lk_ret ds.

(** decode.rs:544-570. *)
Fixpoint w_read_data_loop (fuel : nat) g (meta : MetaData) (remove_mask : bool) (y x : Z) (neg_dir : bool) (ds : RawData)
  : look S RawData :=
  match fuel with
  | O => lk_lift Diverge
  | Datatypes.S fuel' =>
      if 0 <? x then
        let x := if x =? 6 then x - 1 else x in
        see* ds := w_read_cell g meta remove_mask y x ds in
        see* ds := w_read_cell g meta remove_mask y (x - 1) ds in
        if (y =? 0) && neg_dir then w_read_data_loop fuel' g meta remove_mask 0 (Z.max 0 (x - 2)) false ds
        else if negb neg_dir && (y =? wg_size g - 1) then
          w_read_data_loop fuel' g meta remove_mask (wg_size g - 1) (Z.max 0 (x - 2)) true ds
        else if neg_dir then w_read_data_loop fuel' g meta remove_mask (y - 1) x neg_dir ds
        else w_read_data_loop fuel' g meta remove_mask (y + 1) x neg_dir ds
      else lk_ret ds
  end.

(** decode.rs:534-573 [read_data]. *)
Definition w_read_data g (meta : MetaData) (remove_mask : bool) : look S RawData :=
  see* y := lk_lift (usub (wg_size g) 1) in
  see* x := lk_lift (usub (wg_size g) 1) in
  w_read_data_loop (read_data_fuel (wg_size g)) g meta remove_mask y x true (mkRaw zero_payload 0).

(** decode.rs:133-137 [get_raw]. *)
Definition w_get_raw g (remove_mask : bool) : look S (MetaData * RawData) :=
  see* meta := w_read_format g in
  see* raw := w_read_data g meta remove_mask in
  lk_ret (meta, raw).

(** decode.rs:113-117: the inner function [_decode]. *)
Definition w_decode_inner g : look S (MetaData * CorrectedDataStream) :=
  see* (meta, raw) := w_get_raw g true in
  see* stream := lk_lift (codestream_ecc meta raw) in
  lk_ret (meta, stream).

(** decode.rs:109-128 [decode]: the states of the grid and of the writer go on after an error. *)
Definition w_decode {W} (wr : W -> list Z -> W * bool) g (s : S) (w : W) : out (S * W * (MetaData + deqr_error)) :=
  let* t := w_decode_inner g s in
  let* t :=
    match snd t with
    | inl r => Ok (fst t, inl r)
    | inr original =>
        let* t' := w_decode_inner (w_mirrored g) (fst t) in
        Ok (fst t', match snd t' with inl r => inl r | inr _ => inr original end)
    end in
  match snd t with
  | inl (meta, stream) =>
      let '(w, r) := (do* _ := decode_payload wr meta stream in io_ret meta)%io w in
      lk_lift r (fst t, w)
  | inr e => Ok (fst t, w, inr e)
  end.

(** /repo/src/lib.rs:112-117 [Grid::decode_to], 101-103 [Grid::get_raw_data], 90-95 [Grid::decode]. *)
Definition w_decode_to {W} (wr : W -> list Z -> W * bool) g := w_decode wr g.
Definition w_get_raw_data g : look S (MetaData * RawData) := w_get_raw g false.
Definition w_grid_decode g (s : S) : out (S * (MetaData * list Z + deqr_error)) :=
  let* t := w_decode_to vec_writer g s [] in
  let '(s, o, r) := t in
  match r with
  | inl meta => Ok (s, if utf8_valid o then inl (meta, o) else inr EncodingError)
  | inr e => Ok (s, inr e)
  end.
End Reading.

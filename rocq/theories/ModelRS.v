(** Error correction of /repo/src/decode.rs: lines 336-531.

    [usize] indices are [nat]; the fixed arrays [[G; 64]] are lists (of length 64);
    GF elements are the integers they wrap.  Every index is checked. *)
From Verif Require Import Base VersionDb ModelGF.

Definition zeros64 {T} (G : GaloisField T) : list T := repeat (gf_zero G) 64.

(** [usize] subtraction on [nat]. *)
Definition nsub {E} (a b : nat) : res E nat := if (b <=? a)%nat then Ok (a - b)%nat else Panic.

Definition gdiv {E T} (G : GaloisField T) (a b : T) : res E T :=
  match gf_div G a b with Some c => Ok c | None => Panic end.

(** /repo/src/decode.rs:514-531 [poly_add].  The [break] when [p >= 64] ends the loop; since [p]
    grows with [i], leaving the state unchanged in all later iterations is the same. *)
Definition poly_add {E T} (G : GaloisField T) (dst src : list T) (c : T) (shift : nat)
  : res E (list T) :=
  if gf_eqb G c (gf_zero G) then Ok dst
  else
    for_each (range 0 64)
      (fun i dst =>
         let p := (i + shift)%nat in
         if (64 <=? p)%nat then Ok dst
         else
           let* v := aget src i in
           let* o := aget dst p in
           aset dst p (gf_add G o (gf_mul G v c)))
      dst.

(** The mutable variables of [berlekamp_massey], lines 475-482 ([ts] is a temporary). *)
Record bm_state (T : Type) := mkBM {
  bm_cs : list T; bm_bs : list T; bm_l : nat; bm_m : nat; bm_b : T
}.
Arguments mkBM {T} _ _ _ _ _.
Arguments bm_cs {T} _.
Arguments bm_bs {T} _.
Arguments bm_l {T} _.
Arguments bm_m {T} _.
Arguments bm_b {T} _.

(** /repo/src/decode.rs:485-491: the discrepancy [d]. *)
Definition bm_discrepancy {E T} (G : GaloisField T) (s cs : list T) (l n : nat) : res E T :=
  let* d0 := aget s n in
  for_each (range 1 (l + 1))
    (fun i d =>
       let* c := aget cs i in
       let* k := nsub n i in
       let* sv := aget s k in
       Ok (gf_add G d (gf_mul G c sv)))
    d0.

(** /repo/src/decode.rs:484-508: one iteration of the main loop. *)
Definition bm_step {E T} (G : GaloisField T) (s : list T) (n : nat) (st : bm_state T)
  : res E (bm_state T) :=
  let* d := bm_discrepancy G s (bm_cs st) (bm_l st) n in
  let* mult := gdiv G d (bm_b st) in
  if gf_eqb G d (gf_zero G) then
    Ok (mkBM (bm_cs st) (bm_bs st) (bm_l st) (bm_m st + 1) (bm_b st))
  else if (bm_l st * 2 <=? n)%nat then
    let ts := bm_cs st in
    let* cs' := poly_add G (bm_cs st) (bm_bs st) mult (bm_m st) in
    let* l' := nsub (n + 1) (bm_l st) in
    Ok (mkBM cs' ts l' 1 d)
  else
    let* cs' := poly_add G (bm_cs st) (bm_bs st) mult (bm_m st) in
    Ok (mkBM cs' (bm_bs st) (bm_l st) (bm_m st + 1) (bm_b st)).

(** /repo/src/decode.rs:471-510 [berlekamp_massey] *)
Definition berlekamp_massey {E T} (G : GaloisField T) (s : list T) (n : nat) : res E (list T) :=
  let init := mkBM (upd (zeros64 G) 0 (gf_one G)) (upd (zeros64 G) 0 (gf_one G)) 0 1 (gf_one G) in
  let* st := for_each (range 0 n) (bm_step G s) init in
  Ok (bm_cs st).

(** /repo/src/decode.rs:442-455 [poly_eval] *)
Definition poly_eval {E T} (G : GaloisField T) (s : list T) (x : T) : res E T :=
  let* r := for_each (range 0 64)
    (fun i '(sum, x_pow) =>
       let* si := aget s i in
       Ok (gf_add G sum (gf_mul G si x_pow), gf_mul G x_pow x))
    (gf_zero G, gf_one G) in
  Ok (fst r).

(** /repo/src/decode.rs:457-467 [eloc_poly] *)
Definition eloc_poly {E T} (G : GaloisField T) (s sigma : list T) (npar : nat) : res E (list T) :=
  for_each (range 0 npar)
    (fun i omega =>
       let* a := aget sigma i in
       for_each (range 0 (npar - i))
         (fun j omega =>
            let* b := aget s (j + 1) in
            let* o := aget omega (i + j) in
            aset omega (i + j) (gf_add G o (gf_mul G a b)))
         omega)
    (zeros64 G).

(** /repo/src/decode.rs:421-440 [block_syndromes].  The Rust function returns [Err(s)] when some
    syndrome is non-zero and [Ok(s)] otherwise; here the flag [nonzero] is returned with [s]. *)
Definition block_syndromes {E T} (G : GaloisField T) (block : list T) (npar : nat)
  : res E (bool * list T) :=
  for_each (range 0 npar)
    (fun i '(nonzero, s) =>
       let* s := for_each (range 0 (length block))
         (fun j s =>
            let* k := nsub (length block - 1) j in
            let* c := aget block k in
            let* si := aget s i in
            aset s i (gf_add G si (gf_mul G c (gf_pow G (gf_gen G) (i * j)))))
         s in
       let* si := aget s i in
       Ok (if gf_eqb G si (gf_zero G) then nonzero else true, s))
    (false, zeros64 G).

(** /repo/src/decode.rs:390-392: formal derivative, indices 1, 3, ..., 63. *)
Definition sigma_derivative {E T} (G : GaloisField T) (sigma : list T) : res E (list T) :=
  for_each (map (fun k => 2 * k + 1)%nat (range 0 32))
    (fun i sd =>
       let* v := aget sigma i in
       let* k := nsub i 1 in
       aset sd k v)
    (zeros64 G).

(** /repo/src/decode.rs:397-409: search for error locations and repair them. *)
Definition repair_loop {T} (G : GaloisField T) (bs : nat) (sigma sigma_deriv omega : list T)
  (block : list T) : res deqr_error (list T) :=
  for_each (range 0 bs)
    (fun i block =>
       let* e := nsub 255 i in
       let xinv := gf_pow G (gf_gen G) e in
       let* sx := poly_eval G sigma xinv in
       if gf_eqb G sx (gf_zero G) then
         let* sd_x := poly_eval G sigma_deriv xinv in
         let* omega_x := poly_eval G omega xinv in
         if gf_eqb G sd_x (gf_zero G) then Err DataEcc
         else
           let* error := gdiv G omega_x sd_x in
           let* k := nsub bs i in
           let* k := nsub k 1 in
           let* old := aget block k in
           aset block k (gf_add G old error)
       else Ok block)
    block.

(** /repo/src/decode.rs:376-415 [correct_block].  [block] is the slice [dst], whose length is
    [ecc.bs] at the only call site; [&block[..ecc.bs]] panics when the slice is shorter. *)
Definition correct_block {T} (G : GaloisField T) (block : list T) (ecc : RSParameters)
  : res deqr_error (list T) :=
  let* _ := assert_ (rs_dw ecc <? rs_bs ecc)%nat in
  let npar := (rs_bs ecc - rs_dw ecc)%nat in
  let* _ := assert_ (rs_bs ecc <=? length block)%nat in
  let* synd := block_syndromes G (firstn (rs_bs ecc) block) npar in
  let '(nonzero, s) := synd in
  if negb nonzero then Ok block
  else
    let* sigma := berlekamp_massey G s npar in
    let* sigma_deriv := sigma_derivative G sigma in
    let* omega := eloc_poly G s sigma (npar - 1) in
    let* block := repair_loop G (rs_bs ecc) sigma sigma_deriv omega block in
    let* synd := block_syndromes G (firstn (rs_bs ecc) block) npar in
    if negb (fst synd) then Ok block else Err DataEcc.

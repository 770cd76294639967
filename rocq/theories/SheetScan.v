(** Any messages, printed with dots in a row of symbols of one version. *)
From Coq Require Import SpecFloat.
From Verif Require Import Base Lib ModelImage ModelIdentify SpecImage SpecFinder SpecPicture SpecSheet EncodeProofs SymbolProofs DrawProofs DotProofs SheetProofs SheetRender SheetOrder SpecQR.
From Coq Require Import ZifyBool.
Open Scope Z_scope.
Set Bullet Behavior "Strict Subproofs".

(** The picture of a symbol with dots [d] pixels from the edges of the modules. *)
Definition dots (d : Z) (k : mark) : Z -> Z -> bool := dotted (mk_v k) (mk_sym k) (mk_m k) d (mk_ox k) (mk_oy k) (mk_r k).

Theorem scan_dots {Srt : Sorter spec_float} w h d ts : 1 <= w <= 32768 -> 1 <= h <= 32768 -> 1 <= d ->
  (forall t, In t ts -> let k := pr_mark t in
     1 <= mk_v k <= 40 /\ mk_v k <> 21 /\ 2 * d + 2 <= mk_m k
     /\ 0 <= mk_ox k /\ 0 <= mk_oy k /\ mk_ox k + side k <= w /\ mk_oy k + side k <= h
     /\ (7 * mk_m k - 1) * (7 * mk_m k - 1) * furthest (mk_v k) (mk_m k) (mk_ox k) (mk_oy k) (mk_r k) < 2 ^ 31
     /\ mk_sym k = encode (mk_v k) (pr_level t) (pr_mask t) (pr_text t)
     /\ 0 <= pr_mask t < 8 /\ message_ok (mk_v k) (pr_text t) /\ fits (mk_v k) (pr_level t) (pr_text t)) ->
  ForallOrdPairs spaced (map pr_mark ts) -> orderly (map pr_mark ts) ->
  exists p, prepare_from_bitmap w h (overlay (dots d) (map pr_mark ts)) = Ok p /\ scans_sheet p ts.
Proof.
  intros Hw Hh Hd T Sp Od. apply scan_sheet_bitmap.
  - apply overlay_clear; try assumption. intros k Hk. apply in_map_iff in Hk as (t & <- & Ht).
    destruct (T t Ht) as (V & V21 & M & Ox & Oy & Rw & Rh & Pr & Es & _). apply dotted_alone. apply dotted_clear; try assumption; try lia.
    rewrite Es. apply encode_patterns. exact V.
  - intros t Ht. destruct (T t Ht) as (V & _ & _ & _ & _ & _ & _ & _ & Es & Mk & Ok_ & Ft). split; [exact Mk|]. split; [exact Ok_|]. split; [exact Ft|].
    rewrite Es. apply encode_is_symbol; assumption.
Qed.

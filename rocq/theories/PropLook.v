(** Properties of decoding a grid that remembers things: C76.
    Every theorem is followed by its assumptions and by a case meeting its hypotheses. *)
From Verif Require Import Base Lib ModelDecode ModelImage ModelCalls ModelLook SpecCalls SpecReading SpecLook SpecQR Refuted GridProofs SymbolProofs PropGrid LookProofs.
From Coq Require Import ZifyBool.
Open Scope Z_scope.

(** * C76 *)

(** A grid that always answers alike (it may keep a cache, or a log of the questions): decoded as the grid that remembers
    nothing, whatever its size, and whatever it does outside. *)
Theorem C76_steady S (g : WatchedGrid S) p s : steady g p ->
  (forall W (wr : W -> list Z -> W * bool) w, exists s', w_decode_to wr g s w = lk_lift (snd (grid_decode_to wr p w)) (s', fst (grid_decode_to wr p w)))
  /\ (exists s', w_grid_decode g s = lk_lift (grid_decode p) s') /\ (exists s', w_get_raw_data g s = lk_lift (grid_get_raw_data p) s').
Proof. intros T. split; [intros W wr w; exact (steady_decode S g p W wr s w T)|]. split; [exact (steady_grid_decode S g p s T)|exact (steady_raw g p T false s)]. Qed.
Print Assumptions C76_steady.

(** Any grid of the size of a symbol: either it shows some picture, module by module, while it is asked for the modules
    that a reader of that picture needs, and the raw data are those of the picture; or one of the calls panics. *)
Theorem C76_raw S (g : WatchedGrid S) v s : 1 <= v <= 40 -> v <> 21 -> wg_size g = symbol_size v ->
  (exists sym l s', asked_for v sym l /\ shown g s l sym s' /\ w_get_raw_data g s = lk_lift (grid_get_raw_data (showing v sym)) s')
  \/ (exists l, NoDup l /\ Forall (inside v) l /\ call_ends g s l (w_get_raw_data g s)).
Proof.
  intros Hv H21 Hg. destruct (raw_looks g v Hv H21 Hg false s) as [(sym & l & s' & A & Sh)|H]; [left|right; exact H].
  exists sym, l, s'. split; [exact A|]. split; [exact Sh|]. exact (raw_seen S g v false sym l s s' Hv H21 Hg A Sh).
Qed.
Print Assumptions C76_raw.

(** No module is asked for twice, and none outside the grid. *)
Theorem C76_once v sym l : 1 <= v <= 40 -> asked_for v sym l -> NoDup l /\ Forall (inside v) l.
Proof. exact (asked_inside v sym l). Qed.
Print Assumptions C76_once.

(** Decoding: one look at the grid, and if that cannot be corrected a second one, of the transposed grid.  Each look sees
    some picture; the outcome is that of the first picture that can be corrected, else the error of the first.  It panics
    only if a call does. *)
Theorem C76_decode S W (wr : W -> list Z -> W * bool) v (g : WatchedGrid S) s w : 1 <= v <= 40 -> v <> 21 -> wg_size g = symbol_size v ->
  (exists sym l s', asked_for v sym l /\ shown g s l sym s' /\ (exists x, decode_inner (showing v sym) = Ok x)
     /\ w_decode_to wr g s w = lk_lift (snd (grid_decode_to wr (showing v sym) w)) (s', fst (grid_decode_to wr (showing v sym) w)))
  \/ (exists sym l s' sym2 l2 s'' e, asked_for v sym l /\ shown g s l sym s' /\ decode_inner (showing v sym) = Err e /\ asked_for v sym2 l2 /\ shown (w_mirrored g) s' l2 sym2 s''
     /\ (((exists x, decode_inner (showing v sym2) = Ok x) /\ w_decode_to wr g s w = lk_lift (snd (grid_decode_to wr (showing v sym2) w)) (s'', fst (grid_decode_to wr (showing v sym2) w)))
         \/ ((exists e2, decode_inner (showing v sym2) = Err e2) /\ w_decode_to wr g s w = Ok (s'', w, inr e))))
  \/ (exists l l2, NoDup l /\ NoDup l2 /\ Forall (inside v) (l ++ l2) /\ call_ends g s (l ++ l2) (w_decode_to wr g s w)).
Proof. exact (decode_looks S W wr v g s w). Qed.
Print Assumptions C76_decode.

(** A grid that writes down the questions; one that shows the symbol for 223 calls and is white from then on; one that
    panics when asked for a module of the timing patterns, and one that panics when asked for the last module. *)
Definition logging : WatchedGrid (list (Z * Z)) := MkWatched 21 (fun s y x => Ok (s ++ [(y, x)], table_symbol 21 rqrr_rows y x)).
Definition fading (n : Z) : WatchedGrid Z := MkWatched 21 (fun s y x => Ok (s + 1, if s <? n then table_symbol 21 rqrr_rows y x else false)).
Definition fragile (y0 x0 : Z) : WatchedGrid unit := MkWatched 21 (fun s y x => if (y =? y0) && (x =? x0) then Panic else Ok (s, table_symbol 21 rqrr_rows y x)).

Example C76_example :
  steady logging rqrr_grid
  /\ w_grid_decode logging [] = Ok (copy_order format_module_1 ++ data_modules 1, inl (mkMeta 1 0 0, [114; 113; 114; 114]))
  /\ w_grid_decode (fading 223) 0 = Ok (223, inl (mkMeta 1 0 0, [114; 113; 114; 114]))
  /\ w_grid_decode (fading 0) 0 = Ok (60, inr FormatEcc)
  /\ w_grid_decode (fragile 6 10) tt = Ok (tt, inl (mkMeta 1 0 0, [114; 113; 114; 114]))
  /\ w_grid_decode (fragile 20 20) tt = Panic.
Proof.
  split; [split; [reflexivity|]; intros s y x; cbn [g_bit rqrr_grid grid_of]; eexists; reflexivity|].
  repeat split; vm_compute; reflexivity.
Qed.

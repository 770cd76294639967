(** What may be read off any square of modules of the size of a symbol, damaged or not, however it came
    about.  Written from the standard's description of a symbol (SpecQR.v), except for the block as
    gathered below, which has the library's own mistake in it. *)
From Verif Require Import Base SpecQR.
Open Scope Z_scope.

(** A copy of the format information says level [e] and mask [mask]; it is lost if it says nothing. *)
Definition copy_says (loc : nat -> Z * Z) (sym : Z -> Z -> bool) (e : level) (mask : Z) : Prop :=
  0 <= mask < 8 /\ correctable (copy_word loc sym) (format_word e mask).
Definition copy_lost (loc : nat -> Z * Z) (sym : Z -> Z -> bool) : Prop :=
  forall e mask, ~ copy_says loc sym e mask.

(** The first copy is believed if it says something. *)
Inductive format_says (size : Z) (sym : Z -> Z -> bool) (e : level) (mask : Z) : Prop :=
| first_copy : copy_says format_module_1 sym e mask -> format_says size sym e mask
| second_copy : copy_lost format_module_1 sym -> copy_says (format_module_2 size) sym e mask ->
    format_says size sym e mask.
Definition format_lost (size : Z) (sym : Z -> Z -> bool) : Prop :=
  copy_lost format_module_1 sym /\ copy_lost (format_module_2 size) sym.

(** Block [i] as gathered from the codewords received: the last data codeword of a long block is taken
    from the wrong place (see C24). *)
Definition gathered_block (v : Z) (e : level) (words : list Z) (i : nat) : list Z :=
  let b := received_block v e words i in
  if (i <? short_blocks v e)%nat then b
  else upd b (block_data v e 0) (nth (block_data v e 0 * num_blocks v e + i) words 0).

(** [c] is a word of the code nearest to [r]. *)
Definition nearest_word (npar : nat) (r c : list Z) : Prop :=
  length c = length r /\ rs_codeword npar c /\
  forall c', length c' = length r -> rs_codeword npar c' -> (distance r c <= distance r c')%nat.

(** No word of the code is within half the number of check bytes of [r]. *)
Definition out_of_reach (npar : nat) (r : list Z) : Prop :=
  forall c, length c = length r -> rs_codeword npar c -> (npar < 2 * distance r c)%nat.

Inductive reading :=
| Data (e : level) (mask : Z) (data : list Z)
| NoFormat
| NoData.

(** What a symbol of version [v] reads as. *)
Inductive reads (v : Z) (sym : Z -> Z -> bool) : reading -> Prop :=
| reads_data e mask (c : nat -> list Z) : format_says (symbol_size v) sym e mask ->
    (forall i, (i < num_blocks v e)%nat ->
       nearest_word (ecc_per_block v e) (gathered_block v e (received_codewords v mask sym) i) (c i)) ->
    reads v sym (Data e mask (concat (map (fun i => firstn (block_data v e i) (c i)) (seq 0 (num_blocks v e)))))
| reads_no_format : format_lost (symbol_size v) sym -> reads v sym NoFormat
| reads_no_data e mask i : format_says (symbol_size v) sym e mask -> (i < num_blocks v e)%nat ->
    out_of_reach (ecc_per_block v e) (gathered_block v e (received_codewords v mask sym) i) ->
    reads v sym NoData.

Definition mirrored (sym : Z -> Z -> bool) : Z -> Z -> bool := fun y x => sym x y.

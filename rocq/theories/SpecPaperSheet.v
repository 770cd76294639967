(** Several symbols on one sheet of light paper.

    Independent of the model. *)
From Coq Require Import List ZArith.
From Verif Require Import SpecImage SpecSheet SpecQR.
Open Scope Z_scope.

(** A symbol drawn with dots, the margin around a dot being [d] pixels, at least an eighth of the module, with four
    modules of paper to its left and to its right. *)
Record labelled (w d : Z) (k : mark) : Prop := {
  lb_unit : 2 * d + 2 <= mk_m k <= 8 * d;
  lb_left : 4 * mk_m k <= mk_ox k;
  lb_right : mk_ox k + side k + 4 * mk_m k <= w
}.

(** A row of pixels lies between the two symbols; or their modules are equally large and four of them (a quiet zone)
    lie between the one and the other. *)
Definition quiet_between (k k' : mark) : Prop :=
  mk_oy k + side k < mk_oy k' \/ mk_oy k' + side k' < mk_oy k
  \/ mk_m k = mk_m k' /\ (mk_ox k + side k + 4 * mk_m k <= mk_ox k' \/ mk_ox k' + side k' + 4 * mk_m k <= mk_ox k).

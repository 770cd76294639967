(** Symbols printed the wrong way round: seen through glass, or turned about a diagonal. *)
From Verif Require Import Base SpecReading SpecPicture SpecSheet SpecQR.
Open Scope Z_scope.

(** The marks show the mirror image of the symbol of the message. *)
Definition mirrored_print_ok (t : print) : Prop :=
  0 <= pr_mask t < 8 /\ message_ok (mk_v (pr_mark t)) (pr_text t) /\ fits (mk_v (pr_mark t)) (pr_level t) (pr_text t)
  /\ is_symbol (mk_v (pr_mark t)) (pr_level t) (pr_mask t) (pr_text t) (mirrored (mk_sym (pr_mark t))).

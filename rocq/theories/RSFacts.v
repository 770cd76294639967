(** Reed-Solomon facts in the form of the property statements. *)
From Verif Require Import Base VersionDb ModelGF ModelRS SpecQR RSBytes RSEncode.
From Coq Require Import List ZArith Bool Lia.
Import ListNotations.
Open Scope Z_scope.
Set Bullet Behavior "Strict Subproofs".

Lemma rs_parity_is_codeword (npar : nat) (data : list Z) : Forall is_byte data ->
  length (rs_parity npar data) = npar /\ rs_codeword npar (data ++ rs_parity npar data).
Proof. intros H. apply rs_parity_codeword. exact H. Qed.

Lemma distance_self (c : list Z) : distance c c = 0%nat.
Proof. induction c as [|x c IH]; cbn [distance]; [reflexivity|]. rewrite Z.eqb_refl, IH. reflexivity. Qed.

Lemma codeword_unchanged (bs dw ns : nat) (c : list Z) :
  length c = bs -> (dw < bs)%nat -> (bs <= 255)%nat -> (bs - dw < 64)%nat ->
  rs_codeword (bs - dw) c -> correct_block GF256 c (mkRS bs dw ns) = Ok c.
Proof.
  intros Hl Hd Hb Hp Hc. apply correct_block_corrects; try assumption.
  - apply Hc.
  - rewrite distance_self. lia.
Qed.

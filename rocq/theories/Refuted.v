(** Concrete symbols on which the library does not do what the standard promises. *)
From Verif Require Import Base VersionDb ModelGF ModelRS ModelDecode SpecQR FormatProofs.
Open Scope Z_scope.

(** A symbol given by its rows: the modules of a row are the binary digits of a number, leftmost
    first. *)
Definition table_symbol (size : Z) (rows : list Z) (y x : Z) : bool :=
  Z.testbit (nth (Z.to_nat y) rows 0) (size - 1 - x).
Definition grid_of (size : Z) (sym : Z -> Z -> bool) : BitGrid := mkGrid size (fun y x => Ok (sym y x)).

Lemma grid_of_readable size sym : readable (grid_of size sym) sym.
Proof. intros y x _ _. reflexivity. Qed.

(** "rqrr" *)
Definition rqrr_message : list segment := [ByteMode [114; 113; 114; 114]].

(** * A long block with as many errors as its check codewords allow *)
Definition damaged (cws : list Z) (ps : list nat) : list Z :=
  map (fun p => if existsb (Nat.eqb (fst p)) ps then Z.lxor (snd p) 1 else snd p)
      (combine (seq 0 (length cws)) cws).
Definition v5q_rows : list Z :=
  [136878836095; 70258755393; 100189351261; 100207201885; 100302948445; 69921358913; 136723125631;
   406262016; 57479668319; 95377533594; 69991547981; 131525897944; 51363796349; 26653882010;
   70259931266; 62756213459; 85493965242; 56876034985; 81139238783; 4642123050; 79152154223;
   67547672198; 72481915970; 13367111207; 102776395134; 35327997732; 74285562802; 49847603687;
   102457943030; 514926872; 136805647709; 69971815696; 100263401465; 100062639974; 100287412817;
   70090674310; 136545595863].
Definition v5q_symbol : Z -> Z -> bool := table_symbol 37 v5q_rows.
Definition v5q_data : list Z := data_codewords 5 (data_capacity 5 EcQ) rqrr_message.

(** Nine codewords of the third block are wrong, nothing else is. *)
Lemma v5q_received : received_codewords 5 0 v5q_symbol
  = damaged (symbol_codewords 5 EcQ v5q_data) [2; 6; 10; 14; 18; 22; 26; 30; 34]%nat.
Proof. vm_compute. reflexivity. Qed.
Lemma v5q_format : format_read format_module_1 v5q_symbol = format_bits (format_word EcQ 0).
Proof. vm_compute. reflexivity. Qed.
Lemma v5q_distances : map (fun i => distance (received_block 5 EcQ (received_codewords 5 0 v5q_symbol) i)
                                             (nth i (symbol_blocks 5 EcQ v5q_data) []))
                          (seq 0 (num_blocks 5 EcQ)) = [0; 0; 9; 0]%nat /\ ecc_per_block 5 EcQ = 18%nat.
Proof. split; vm_compute; reflexivity. Qed.
Lemma v5q_not_decoded : grid_decode (grid_of 37 v5q_symbol) = Err DataEcc.
Proof. vm_compute. reflexivity. Qed.

(** Sanity checks of the model against the literal grids of the project's own tests
    (/repo/src/lib.rs:343-703).  These are tests of the model, not properties. *)
From Verif Require Import Base VersionDb ModelGF ModelRS ModelDecode.

(** /repo/src/lib.rs [test_rqrr] *)
Definition grid_test_rqrr : list (list Z) := [
  [1;1;1;1;1;1;1;0;0;0;1;0;0;0;1;1;1;1;1;1;1];
  [1;0;0;0;0;0;1;0;1;1;1;0;0;0;1;0;0;0;0;0;1];
  [1;0;1;1;1;0;1;0;0;1;0;1;1;0;1;0;1;1;1;0;1];
  [1;0;1;1;1;0;1;0;0;0;0;0;1;0;1;0;1;1;1;0;1];
  [1;0;1;1;1;0;1;0;1;1;0;1;1;0;1;0;1;1;1;0;1];
  [1;0;0;0;0;0;1;0;0;1;1;1;0;0;1;0;0;0;0;0;1];
  [1;1;1;1;1;1;1;0;1;0;1;0;1;0;1;1;1;1;1;1;1];
  [0;0;0;0;0;0;0;0;0;0;1;0;0;0;0;0;0;0;0;0;0];
  [1;0;1;0;1;0;1;0;0;0;0;0;1;0;0;0;1;0;0;1;0];
  [1;0;0;1;1;0;0;0;0;0;0;1;0;1;0;1;0;1;0;0;1];
  [0;1;0;1;1;0;1;1;0;1;1;1;0;1;1;1;0;1;1;1;1];
  [1;1;0;0;0;1;0;0;1;1;1;1;1;1;0;1;1;0;0;1;1];
  [0;0;1;0;1;1;1;0;1;0;0;1;0;1;1;1;0;1;0;0;1];
  [0;0;0;0;0;0;0;0;1;1;1;0;0;0;1;0;0;1;0;0;1];
  [1;1;1;1;1;1;1;0;0;1;1;0;1;0;0;0;1;0;0;1;1];
  [1;0;0;0;0;0;1;0;0;1;1;0;0;0;1;0;0;0;0;1;0];
  [1;0;1;1;1;0;1;0;1;0;0;0;1;0;1;0;1;1;0;1;1];
  [1;0;1;1;1;0;1;0;0;1;0;1;0;1;0;1;0;1;0;1;0];
  [1;0;1;1;1;0;1;0;1;1;0;1;0;1;1;1;0;0;0;0;1];
  [1;0;0;0;0;0;1;0;0;0;1;1;1;1;0;1;1;1;0;1;0];
  [1;1;1;1;1;1;1;0;1;0;0;1;0;1;1;1;0;0;1;1;1]].
(** /repo/src/lib.rs [test_github] *)
Definition grid_test_github : list (list Z) := [
  [1;1;1;1;1;1;1;0;0;1;0;1;0;0;1;0;0;1;0;1;0;0;1;1;1;1;1;1;1];
  [1;0;0;0;0;0;1;0;1;1;1;1;0;1;0;0;0;0;0;1;0;0;1;0;0;0;0;0;1];
  [1;0;1;1;1;0;1;0;0;1;1;0;0;0;0;1;0;0;1;1;0;0;1;0;1;1;1;0;1];
  [1;0;1;1;1;0;1;0;0;0;0;1;1;1;0;0;1;0;1;0;0;0;1;0;1;1;1;0;1];
  [1;0;1;1;1;0;1;0;1;0;1;1;0;1;0;0;1;0;1;1;0;0;1;0;1;1;1;0;1];
  [1;0;0;0;0;0;1;0;0;0;0;1;1;0;1;1;1;1;1;1;1;0;1;0;0;0;0;0;1];
  [1;1;1;1;1;1;1;0;1;0;1;0;1;0;1;0;1;0;1;0;1;0;1;1;1;1;1;1;1];
  [0;0;0;0;0;0;0;0;0;1;1;1;1;0;0;1;0;1;1;1;0;0;0;0;0;0;0;0;0];
  [1;0;1;0;1;0;1;0;0;0;0;1;1;0;0;0;1;1;0;0;1;0;0;0;1;0;0;1;0];
  [0;0;0;0;0;1;0;0;0;0;1;1;0;1;0;1;1;0;0;0;1;0;1;0;0;1;0;0;1];
  [1;1;1;0;1;1;1;1;1;0;0;0;1;0;1;1;1;1;0;0;0;1;1;0;1;0;1;1;1];
  [1;0;1;0;0;0;0;1;0;0;0;1;1;1;1;0;1;1;0;0;1;0;0;1;1;0;0;1;0];
  [0;1;1;0;1;0;1;1;1;0;0;0;1;0;1;1;1;0;0;0;0;1;1;0;0;1;0;1;1];
  [0;0;0;0;1;1;0;0;1;1;1;0;0;0;1;1;0;1;0;1;1;1;1;0;0;1;0;0;1];
  [1;0;1;0;0;1;1;0;1;0;0;0;1;1;0;0;1;1;1;0;0;0;1;0;1;1;0;1;1];
  [1;1;0;0;1;1;0;1;1;0;1;1;1;0;0;0;0;1;0;0;1;1;1;0;0;1;0;1;0];
  [1;0;0;1;0;1;1;1;1;0;1;1;1;0;0;0;0;1;0;1;1;0;1;1;0;1;0;1;1];
  [0;0;1;1;1;1;0;0;0;0;1;1;1;1;0;0;1;1;1;0;0;1;1;0;0;1;1;0;1];
  [1;0;1;1;0;0;1;0;0;0;1;0;0;0;1;0;1;0;0;0;0;1;0;1;1;0;0;1;1];
  [0;1;0;1;1;0;0;1;1;0;0;0;1;1;1;0;0;1;1;1;1;1;1;1;1;1;0;1;0];
  [1;0;1;1;1;1;1;0;0;1;0;1;0;0;1;0;0;1;0;1;1;1;1;1;1;0;0;0;0];
  [0;0;0;0;0;0;0;0;1;0;0;1;1;0;1;0;1;1;0;1;1;0;0;0;1;0;1;1;1];
  [1;1;1;1;1;1;1;0;0;1;0;0;0;1;0;0;0;1;0;1;1;0;1;0;1;1;0;1;1];
  [1;0;0;0;0;0;1;0;0;1;0;0;1;0;0;1;0;1;1;0;1;0;0;0;1;1;0;0;0];
  [1;0;1;1;1;0;1;0;1;0;1;0;1;0;0;0;0;1;1;0;1;1;1;1;1;0;0;0;1];
  [1;0;1;1;1;0;1;0;0;1;0;1;1;1;0;0;1;0;0;0;1;0;0;1;1;0;1;1;1];
  [1;0;1;1;1;0;1;0;1;1;0;1;1;1;0;0;1;1;0;1;0;0;0;1;1;1;0;0;1];
  [1;0;0;0;0;0;1;0;0;1;1;1;1;0;1;0;0;1;1;1;1;1;0;0;1;0;0;1;0];
  [1;1;1;1;1;1;1;0;1;0;1;1;1;1;1;0;0;1;0;1;1;1;0;1;1;0;0;1;1]].
(** /repo/src/lib.rs [test_number] *)
Definition grid_test_number : list (list Z) := [
  [1;1;1;1;1;1;1;0;0;0;0;1;0;0;0;1;1;0;0;1;0;0;1;1;1;1;1;1;1];
  [1;0;0;0;0;0;1;0;0;0;1;1;1;0;0;0;0;1;0;0;1;0;1;0;0;0;0;0;1];
  [1;0;1;1;1;0;1;0;1;1;0;1;0;0;1;0;1;0;1;0;0;0;1;0;1;1;1;0;1];
  [1;0;1;1;1;0;1;0;1;0;0;0;1;0;0;0;1;1;1;0;1;0;1;0;1;1;1;0;1];
  [1;0;1;1;1;0;1;0;1;1;1;1;1;1;1;1;0;0;0;1;0;0;1;0;1;1;1;0;1];
  [1;0;0;0;0;0;1;0;1;0;1;1;0;1;1;1;1;0;1;0;1;0;1;0;0;0;0;0;1];
  [1;1;1;1;1;1;1;0;1;0;1;0;1;0;1;0;1;0;1;0;1;0;1;1;1;1;1;1;1];
  [0;0;0;0;0;0;0;0;1;0;0;1;0;1;0;1;0;0;0;0;1;0;0;0;0;0;0;0;0];
  [1;0;1;1;1;1;1;0;0;1;1;0;0;0;1;1;0;1;1;0;1;0;1;1;1;1;1;0;0];
  [1;1;1;0;1;0;0;0;0;0;0;0;1;0;0;1;1;0;0;1;0;0;1;0;1;1;0;0;1];
  [0;1;0;0;1;0;1;1;1;0;0;0;1;0;0;0;0;1;0;0;1;1;0;1;1;0;0;1;0];
  [0;1;1;1;1;0;0;0;0;1;1;1;0;0;1;0;1;0;0;0;0;0;0;0;1;0;0;0;1];
  [0;0;1;0;1;0;1;1;0;1;1;1;0;0;0;0;1;1;1;0;1;1;0;1;0;1;1;1;0];
  [0;0;0;1;1;0;0;1;0;0;0;1;0;1;1;1;0;0;0;1;0;0;1;0;1;1;0;0;1];
  [0;1;0;0;1;0;1;0;0;0;0;0;0;1;1;1;1;0;1;0;0;1;0;0;1;1;0;1;0];
  [1;0;0;1;0;1;0;1;1;1;1;0;1;1;0;1;0;0;0;0;1;0;0;0;1;0;0;1;1];
  [0;0;1;0;0;0;1;1;0;1;1;0;1;0;1;1;0;1;1;0;1;1;0;1;0;1;1;1;0];
  [1;0;0;1;1;1;0;0;1;1;1;1;1;0;0;1;1;1;0;1;0;0;1;0;1;1;0;0;1];
  [1;0;1;0;0;1;1;1;0;0;0;0;1;0;0;0;0;0;1;0;1;1;0;1;1;0;1;1;0];
  [1;0;1;1;1;0;0;1;1;1;1;1;1;0;1;0;1;0;1;0;0;1;1;0;1;0;0;0;0];
  [1;0;1;1;1;1;1;1;0;0;1;0;0;0;0;0;0;1;1;0;1;1;1;1;1;1;1;1;0];
  [0;0;0;0;0;0;0;0;1;0;0;1;1;1;1;1;0;0;0;1;1;0;0;0;1;1;0;0;1];
  [1;1;1;1;1;1;1;0;0;1;1;1;1;1;1;1;0;0;1;1;1;0;1;0;1;1;1;1;0];
  [1;0;0;0;0;0;1;0;1;1;1;1;0;1;0;1;0;0;0;0;1;0;0;0;1;0;0;0;1];
  [1;0;1;1;1;0;1;0;1;0;0;1;1;0;1;1;1;1;1;0;1;1;1;1;1;1;1;0;1];
  [1;0;1;1;1;0;1;0;1;0;1;0;1;1;0;0;0;1;0;1;1;1;0;1;0;0;1;0;0];
  [1;0;1;1;1;0;1;0;1;0;1;0;0;0;0;1;0;0;1;0;0;0;1;0;1;0;0;1;0];
  [1;0;0;0;0;0;1;0;0;1;0;1;0;0;1;0;0;0;0;1;1;1;0;1;1;0;0;1;0];
  [1;1;1;1;1;1;1;0;1;1;1;1;0;1;0;1;1;1;1;0;0;0;0;0;0;1;1;0;0]].

Definition simple_of (rows : list (list Z)) : res deqr_error BitGrid :=
  let* g := simple_from_func (Z.of_nat (length rows))
      (fun x y => nth (Z.to_nat x) (nth (Z.to_nat y) rows []) 0 =? 1) in
  Ok (simple_grid g).

Definition decode_rows (rows : list (list Z)) : res deqr_error (MetaData * list Z) :=
  let* g := simple_of rows in grid_decode g.

(** "rqrr" *)
Example validate_rqrr :
  decode_rows grid_test_rqrr = Ok (mkMeta 1 0 0, [114; 113; 114; 114]).
Proof. vm_compute. reflexivity. Qed.

(** "https://github.com/WanzenBug/rqrr" *)
Example validate_github :
  option_map snd (match decode_rows grid_test_github with Ok r => Some r | _ => None end)
  = Some [104;116;116;112;115;58;47;47;103;105;116;104;117;98;46;99;111;109;47;
          87;97;110;122;101;110;66;117;103;47;114;113;114;114].
Proof. vm_compute. reflexivity. Qed.

(** "1234567891011121314151617181920" *)
Example validate_number :
  option_map snd (match decode_rows grid_test_number with Ok r => Some r | _ => None end)
  = Some [49;50;51;52;53;54;55;56;57;49;48;49;49;49;50;49;51;49;52;49;53;49;54;49;55;49;56;
          49;57;50;48].
Proof. vm_compute. reflexivity. Qed.

(** The mirrored grid decodes to the same content. *)
Example validate_mirrored :
  (let* g := simple_of grid_test_rqrr in grid_decode (MirroredGrid g))
  = Ok (mkMeta 1 0 0, [114; 113; 114; 114]).
Proof. vm_compute. reflexivity. Qed.

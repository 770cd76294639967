(** Transforms with integer coefficients and no perspective can be adjusted. *)
From Coq Require Import Reals Lra SpecFloat.
From Flocq Require Import Core.
From Verif Require Import Base Lib VersionDb ModelDecode ModelImage ModelGeometry ModelDetect ModelIdentify SpecImage FloodProofs RegionProofs
  FloatProofs ApproxProofs LayoutProofs FitnessProofs JiggleProofs JiggleTotal FitProofs SpecPicture SpecQR.
Open Scope Z_scope.
Set Bullet Behavior "Strict Subproofs".

Lemma affine_total I0 p a b d e f g v : reg_inv I0 p -> 1 <= im_w I0 <= 2 ^ 31 -> 1 <= im_h I0 <= 2 ^ 31 -> 1 <= v <= 40 -> v <> 21 ->
  (forall z, In z [a; b; d; e; f; g] -> -33000 <= z <= 33000) ->
  exists c', jiggle_perspective (N := F64) p (Persp (n_of a) (n_of b) (n_of d) (n_of e) (n_of f) (n_of g) (n_of 0) (n_of 0)) (symbol_size v) = Ok c'.
Proof.
  intros R Hw Hh Hv H21 B. destruct (version_entry v Hv H21) as (ver & Ev & Ep).
  assert (Tt : forall c, calm c 40000 -> exists s, fitness_all (N := F64) p c (symbol_size v) = Ok s).
  { intros c C. destruct (all_total I0 p R Hw Hh v ver c ltac:(lia) Ev) as (s & Es & _).
    - intros z Hz. rewrite Ep in Hz. apply positions_range; assumption.
    - exact C.
    - exists s. exact Es. }
  assert (U : forall z, -33000 <= z <= 33000 -> upto (n_of (N := F64) z) 33000).
  { intros z Hz. exists (IZR z). split; [apply (irep_div1 z (2 ^ 53)); lia|]. rewrite <- abs_IZR. apply IZR_le. lia. }
  destruct (jiggle_ok p (symbol_size v) Tt (Persp (n_of (N := F64) a) (n_of b) (n_of d) (n_of e) (n_of f) (n_of g) (n_of 0) (n_of 0))) as (c' & E & _).
  - constructor; cbn [c0 c1 c2 c3 c4 c5 c6 c7]; [apply U, B; cbn; tauto..| |]; apply (irep_div1 0 (2 ^ 53)); lia.
  - exists c'. exact E.
Qed.

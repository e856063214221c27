(* Specification vocabulary for PSF blurring. *)
From Coq Require Import Reals Bool Arith.
From Verif Require Import PyFloat Arr.
Local Open Scope R_scope.

(** A spectra cube with one lit voxel: wavelength [w0], grid row [p], grid column [q].
    Independent of the modelled code. *)
Definition point (cube : arr3 fl) (w0 p q : nat) (f : R) : Prop :=
  (w0 < dim0 cube)%nat /\ (p < dim1 cube)%nat /\ (q < dim2 cube)%nat /\
  forall w i j, at3 cube w i j = Fin (if Nat.eqb w w0 && Nat.eqb i p && Nat.eqb j q then f else 0).


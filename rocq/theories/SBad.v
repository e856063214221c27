(* Specification: pixels that allow a likelihood, and pixels left out of a fit by their error bars. *)
From Coq Require Import Reals List Bool Arith.
From Verif Require Import PyFloat PyBase Arr PyNum MKernels.
Import ListNotations.
Local Open Scope R_scope.

(** Everything at the pixel is a number, and the error is not zero. The mask may have any value. *)
Definition pixel_is_fine (d : data2) (m : arr2 fl) (i j : nat) : Prop :=
  exists f e k w y, at2 (flux d) i j = Fin f /\ at2 (ferr d) i j = Fin e /\ e <> 0 /\ at2 (smask d) i j = Fin k /\ at2 (fwt d) i j = Fin w /\ at2 m i j = Fin y.

(** The error at the pixel is zero, infinite or nan, or its flux, mask or weight is not a number. *)
Definition bad_pixel (d : data2) (i j : nat) : Prop :=
  (forall e, at2 (ferr d) i j = Fin e -> e = 0) \/ isfinite (at2 (flux d) i j) = false \/ isfinite (at2 (smask d) i j) = false \/ isfinite (at2 (fwt d) i j) = false.

(** Infinite errors at the pixels of [B], where the other values are numbers. *)
Definition infinite_errors (B : nat -> nat -> bool) (d : data2) (m : arr2 fl) : Prop :=
  forall i j, (i < rows m)%nat -> (j < cols m)%nat -> B i j = true -> (at2 (ferr d) i j = PInf \/ at2 (ferr d) i j = NInf) /\
    exists f k w y, at2 (flux d) i j = Fin f /\ at2 (smask d) i j = Fin k /\ at2 (fwt d) i j = Fin w /\ at2 m i j = Fin y.

(** The same data with the pixels of [B] masked and their errors set to one. *)
Definition masked_out (B : nat -> nat -> bool) (d : data2) : data2 :=
  mkdata (flux d) (mk2 (rows (ferr d)) (cols (ferr d)) (fun i j => if B i j then Fin 1 else at2 (ferr d) i j))
    (mk2 (rows (smask d)) (cols (smask d)) (fun i j => if B i j then Fin 0 else at2 (smask d) i j)) (fwt d) (wh_nosky d).
